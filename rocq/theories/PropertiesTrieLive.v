(* PropertiesTrieLive.v -- C55: lookups before the trie is frozen. *)
From Coq Require Import List ZArith Lia Bool.
From Verif Require Import Base Scrap Trie Rules TrieProofs TrieSteps TrieMove TrieWords PropertiesTrie TrieLive.
Import ListNotations.
Open Scope Z_scope.

(* Whatever a client stores and looks for before Freeze, in any order: the trie gives up, or afterwards exactly
   the prefixes of the words stored or looked for are found, and no lookup has answered 0. *)
Theorem C55_live size cat t0 rs : NewTinyHashTrie size cat = Some t0 -> fits size cat -> Forall (cword cat) (map word_of rs) ->
  serve_all t0 rs = Panic \/ exists ps t, serve_all t0 rs = Ok (ps, t) /\ length ps = length rs /\ Forall (fun p => 0 < p < size) ps /\
    forall v, cword cat v -> exists q, find t v = Ok q /\ 0 <= q < size /\ (q <> 0 <-> expected (map word_of rs) v).
Proof.
  intros E0 FIT F. destruct FIT as [F1 F2]. destruct (new_inv size cat t0 E0) as [I _]; [lia|lia|].
  destruct (serve_all_ok size (cat + 1) rs t0 I (cwords _ _ F)) as [X|(ps & t & X & I' & LN & PS & R)]; [auto|]. right. exists ps, t. split; [exact X|]. split; [exact LN|]. split; [exact PS|].
  intros v V. assert (W := cword_word _ _ V). specialize (R v W). rewrite (new_reached size cat t0 v E0) in R by (auto; lia).
  assert (XE : reached (cat + 1) t (map (corr (cat + 1)) v) <-> expected (map word_of rs) v).
  { rewrite R. unfold expected, prefix. split; (intros [Q|Q]; [auto|right]); [destruct Q as (w & Q & tl & ->)|destruct Q as (w & tl & Q & ->)]; eauto. }
  destruct (lookup_ok size (cat + 1) t v I' W) as (q & E & [[NZ A]|[-> NR]]); exists q + exists 0; (split; [exact E|]).
  - destruct (At_node _ _ _ _ _ I' A) as [Y _]. unfold cell in Y. split; [lia|]. rewrite <- XE. split; [intros _; now exists q|auto].
  - split; [lia|]. rewrite <- XE. tauto.
Qed.
Print Assumptions C55_live.
Definition live_requests := [Store [13; 20]; Ask [13; 21; 10]; Store [13; 21]; Ask [13; 20]].
Example C55_live_ex : match NewTinyHashTrie 139 46 with
  | Some t0 => match serve_all t0 live_requests with
    | Ok ([p1; p2; p3; p4], t) => p1 = p4 /\ find t [13; 21; 10] = Ok p2 /\ find t [13; 21] = Ok p3 /\ find t [13; 21; 11] = Ok 0
    | _ => False end
  | None => False end.
Proof. vm_compute. repeat split. Qed.

(* "If it returns 0, the prefix is not contained in the trie": before Freeze an answer says nothing, for
   every word that has not been stored and whose first letters are in the trie already the lookup stores it. *)
Theorem C55_lookup_stores_refuted size cat t0 ws ps t v : NewTinyHashTrie size cat = Some t0 -> fits size cat -> Forall (cword cat) ws -> cword cat v ->
  alloc_words t0 ws = Ok (ps, t) -> ~ expected ws v ->
  find t v = Ok 0 /\ (walkT t Iterator0 0 v = Panic \/ exists q t', walkT t Iterator0 0 v = Ok (q, t') /\ q <> 0 /\ find t' v = Ok q).
Proof.
  intros E0 FIT F V E NX. pose proof (reach size cat t0 E0 FIT ws ps t F E) as I. split.
  - destruct (C55_found size cat t0 ws E0 FIT F) as [X|(ps' & t' & X & _ & G)]; rewrite X in E; [discriminate|]. injection E as -> ->.
    destruct (G v V) as (q & -> & _ & Q). f_equal. destruct (Z.eq_dec q 0) as [|NZ]; [assumption|]. apply Q in NZ. tauto.
  - destruct (ask_ok size (cat + 1) t v I (cword_word _ _ V)) as [X|(q & t' & X & I' & A & _)]; [auto|]. right. exists q, t'. split; [exact X|].
    destruct (At_find size cat t' v q I' V A) as [X1 X2]. split; [lia|exact X1].
Qed.
Print Assumptions C55_lookup_stores_refuted.
Example C55_lookup_stores_ex : match NewTinyHashTrie 139 46 with
  | Some t0 => match alloc_words t0 C55_words with
    | Ok (_, t) => find t [13; 22] = Ok 0 /\ match walkT t Iterator0 0 [13; 22] with Ok (q, t') => q <> 0 /\ find t' [13; 22] = Ok q | _ => False end
    | _ => False end
  | None => False end.
Proof. vm_compute. repeat split. discriminate. Qed.

(* A frozen trie is not changed by an iterator, whatever it is asked for; the answers are those of C55_found. *)
Theorem C55_frozen_iterator t w ti p : walkT (Freeze t) ti p w = let* q := walk (Freeze t) ti p w in Ok (q, Freeze t).
Proof. now apply walkT_frozen. Qed.
Print Assumptions C55_frozen_iterator.
Example C55_frozen_iterator_ex : match NewTinyHashTrie 139 46 with
  | Some t0 => walkT (Freeze t0) Iterator0 0 [13; 22] = Ok (0, Freeze t0)
  | None => False end.
Proof. vm_compute. reflexivity. Qed.
