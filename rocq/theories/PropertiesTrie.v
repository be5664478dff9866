(* PropertiesTrie.v -- C55: the hash trie of package bidi/trie stores words, for every size and every list of words. *)
From Coq Require Import List ZArith Lia Bool.
From Verif Require Import Base Scrap Trie Rules TrieProofs TrieSteps TrieMove TrieWords.
Import ListNotations.
Open Scope Z_scope.

(* The sizes which fit into the bytes of the trie, the words a client may store, what is expected to be found. *)
Definition fits (size cat : Z) : Prop := 1 <= cat <= 50 /\ 2 * (cat + 1) < size <= 255.
Definition cword (cat : Z) (w : list Z) : Prop := w <> [] /\ Forall (fun c => 0 <= c < cat) w.
Definition expected (ws : list (list Z)) (v : list Z) : Prop := length v = 1%nat \/ exists w tail, In w ws /\ w = v ++ tail.
(* Freeze, then Next for every letter *)
Definition find (t : trie) (w : list Z) : res Z := walk (Freeze t) Iterator0 0 w.

Lemma cword_word cat w : cword cat w -> word (cat + 1) w.
Proof. intros [NE F]. split; [exact NE|]. eapply Forall_impl; [|exact F]. intros c R. unfold raw. cbv beta in R. lia. Qed.
Lemma word_cword cat w : word (cat + 1) w -> cword cat w.
Proof. intros [NE F]. split; [exact NE|]. eapply Forall_impl; [|exact F]. intros c R. unfold raw in R. lia. Qed.
Lemma cwords cat ws : Forall (cword cat) ws -> Forall (word (cat + 1)) ws.
Proof. apply Forall_impl. apply cword_word. Qed.

Section Reach.
Context (size cat : Z) (t0 : trie) (E0 : NewTinyHashTrie size cat = Some t0) (FIT : fits size cat).
Lemma reach ws ps t : Forall (cword cat) ws -> alloc_words t0 ws = Ok (ps, t) -> inv size (cat + 1) t.
Proof.
  intros F E. destruct FIT as [F1 F2]. destruct (new_inv size cat t0 E0) as [I _]; [lia|lia|].
  destruct (alloc_words_ok size (cat + 1) ws t0 I (cwords _ _ F)) as [X|(ps' & t' & X & I' & _)]; [congruence|]. rewrite X in E. now injection E as <- <-.
Qed.
Lemma find_At t v q : inv size (cat + 1) t -> cword cat v -> find t v = Ok q -> q <> 0 -> At (cat + 1) t (map (corr (cat + 1)) v) q.
Proof. intros I V E NZ. destruct (lookup_ok size (cat + 1) t v I (cword_word _ _ V)) as (q' & E' & [[_ A]|[Z0 _]]); unfold find in E; rewrite E' in E; injection E as ->; [exact A|tauto]. Qed.
Lemma At_find t v q : inv size (cat + 1) t -> cword cat v -> At (cat + 1) t (map (corr (cat + 1)) v) q -> find t v = Ok q /\ 0 < q < size.
Proof.
  intros I V A. destruct (lookup_ok size (cat + 1) t v I (cword_word _ _ V)) as (q' & E' & [[NZ A']|[_ NR]]).
  - pose proof (At_fun _ _ _ _ _ A A'). subst q'. split; [exact E'|]. destruct (At_node _ _ _ _ _ I A) as [X _]. unfold cell in X. lia.
  - destruct NR. now exists q.
Qed.
End Reach.

(* ---- C55 ---- *)
Theorem C55_new size cat : (cat <= 50 <-> exists t, NewTinyHashTrie size cat = Some t).
Proof. unfold NewTinyHashTrie. destruct (Z.ltb_spec 50 cat); (split; [intros ?|intros [t E]]); try lia; [discriminate|now eexists]. Qed.
Print Assumptions C55_new.
Example C55_new_ex : fits 139 46 /\ fits 103 cMAX /\ NewTinyHashTrie 139 51 = None.
Proof. unfold fits. repeat split; vm_compute; congruence. Qed.

(* The words are stored, or the trie gives up; afterwards exactly the prefixes of the stored words are found. *)
Theorem C55_found size cat t0 ws : NewTinyHashTrie size cat = Some t0 -> fits size cat -> Forall (cword cat) ws ->
  alloc_words t0 ws = Panic \/ exists ps t, alloc_words t0 ws = Ok (ps, t) /\ length ps = length ws /\
    forall v, cword cat v -> exists q, find t v = Ok q /\ 0 <= q < size /\ (q <> 0 <-> expected ws v).
Proof.
  intros E0 FIT F. destruct FIT as [F1 F2]. destruct (new_inv size cat t0 E0) as [I _]; [lia|lia|].
  destruct (alloc_words_ok size (cat + 1) ws t0 I (cwords _ _ F)) as [X|(ps & t & X & I' & R & _)]; [auto|]. right. exists ps, t. split; [exact X|]. split.
  - clear R I' I F E0. revert t0 ps t X. induction ws as [|w ws IH]; intros t0 ps t X; cbn [alloc_words] in X; [injection X as <- <-; reflexivity|].
    destruct (AllocPositionForWord t0 w) as [[p t1]| |]; cbn [rbind] in X; try discriminate. destruct (alloc_words t1 ws) as [[ps2 t2]| |] eqn:E2; cbn [rbind] in X; try discriminate.
    injection X as <- <-. cbn [length]. f_equal. eauto.
  - intros v V. assert (W := cword_word _ _ V). specialize (R v W). rewrite (new_reached size cat t0 v E0) in R by (auto; lia).
    assert (XE : reached (cat + 1) t (map (corr (cat + 1)) v) <-> expected ws v).
    { rewrite R. unfold expected, prefix. split; (intros [Q|Q]; [auto|right]); [destruct Q as (w & Q & tl & ->)|destruct Q as (w & tl & Q & ->)]; eauto. }
    destruct (lookup_ok size (cat + 1) t v I' W) as (q & E & [[NZ A]|[-> NR]]); exists q + exists 0; (split; [exact E|]).
    + destruct (At_node _ _ _ _ _ I' A) as [Y _]. unfold cell in Y. split; [lia|]. rewrite <- XE. split; [intros _; now exists q|auto].
    + split; [lia|]. rewrite <- XE. tauto.
Qed.
Print Assumptions C55_found.
Definition C55_words := [[13; 20]; [13; 21]; [13; 21; 10]; [0; 0]].
Example C55_words_ex : Forall (cword 46) C55_words.
Proof. unfold C55_words, cword. repeat (apply Forall_cons || apply Forall_nil || split); try discriminate; lia. Qed.
Example C55_found_ex : match NewTinyHashTrie 139 46 with
  | Some t0 => match alloc_words t0 C55_words with
    | Ok ([p1; p2; p3; p4], t) => map (find t) C55_words = map Ok [p1; p2; p3; p4] /\ (p2 =? p1 + 1) && negb (p3 =? 0) && negb (p4 =? 0) = true /\ find t [13; 21; 11] = Ok 0
    | _ => False end
  | None => False end.
Proof. vm_compute. repeat split. Qed.

(* Different words have different positions. *)
Theorem C55_distinct size cat t0 ws ps t v w q : NewTinyHashTrie size cat = Some t0 -> fits size cat -> Forall (cword cat) ws -> alloc_words t0 ws = Ok (ps, t) ->
  cword cat v -> cword cat w -> find t v = Ok q -> find t w = Ok q -> q <> 0 -> v = w.
Proof.
  intros E0 FIT F E V W Ev Ew NZ. pose proof (reach size cat t0 E0 FIT ws ps t F E) as I. apply (map_corr_inj (cat + 1)); [apply (cword_word _ _ V)|apply (cword_word _ _ W)|].
  apply (At_inj size (cat + 1) t _ _ q I); now apply (find_At size cat).
Qed.
Print Assumptions C55_distinct.

(* The position handed out for a word is the one which is found, as long as no family is relocated. *)
Theorem C55_position_partial size cat t0 ws1 w ws2 ps1 t1 p t2 ps2 t3 : NewTinyHashTrie size cat = Some t0 -> fits size cat -> Forall (cword cat) (ws1 ++ w :: ws2) ->
  alloc_words t0 ws1 = Ok (ps1, t1) -> AllocPositionForWord t1 w = Ok (p, t2) -> alloc_words t2 ws2 = Ok (ps2, t3) ->
  quiet_words t2 ws2 = true -> find t3 w = Ok p /\ 0 < p < size.
Proof.
  intros E0 FIT F E1 E2 E3 Q. apply Forall_app in F. destruct F as [F1 F2]. inversion F2 as [|? ? W F3]; subst. pose proof (reach size cat t0 E0 FIT ws1 ps1 t1 F1 E1) as I1.
  destruct (alloc_ok size (cat + 1) t1 w 0 I1 (cword_word _ _ W) eq_refl) as [X|(q & t & X & I2 & A & _)]; [congruence|]. rewrite X in E2. injection E2 as -> ->.
  destruct (alloc_words_ok size (cat + 1) ws2 t2 I2 (cwords _ _ F3)) as [Y|(ps & t' & Y & I3 & _ & ST)]; [congruence|]. rewrite Y in E3. injection E3 as -> ->.
  apply (At_find size cat); auto.
Qed.
Print Assumptions C55_position_partial.
Example C55_position_ex : match NewTinyHashTrie 139 46 with Some t0 => quiet_words t0 C55_words = true | None => False end.
Proof. vm_compute. reflexivity. Qed.

(* An insertion keeps the positions handed out before exactly if it relocates no family. *)
Theorem C55_stable size cat t0 ws ps t w p t' : NewTinyHashTrie size cat = Some t0 -> fits size cat -> Forall (cword cat) (ws ++ [w]) ->
  alloc_words t0 ws = Ok (ps, t) -> AllocPositionForWord t w = Ok (p, t') ->
  (quiet t w = true <-> forall v q, cword cat v -> find t v = Ok q -> q <> 0 -> find t' v = Ok q).
Proof.
  intros E0 FIT F E1 E2. apply Forall_app in F. destruct F as [F1 F2]. inversion F2 as [|? ? W _]; subst. pose proof (reach size cat t0 E0 FIT ws ps t F1 E1) as I.
  destruct (alloc_ok size (cat + 1) t w 0 I (cword_word _ _ W) eq_refl) as [X|(q & t2 & X & I2 & A & R & ST & MV)]; [congruence|]. rewrite X in E2. injection E2 as -> ->. split.
  - intros Q v q V Ev NZ. apply (At_find size cat); auto. apply ST; [exact Q|]. now apply (find_At size cat).
  - intros KEEP. destruct (quiet t w) eqn:Q; [reflexivity|]. exfalso. destruct (MV eq_refl) as (v & y & y' & Y & Y' & NE). destruct FIT as [K1 K2].
    destruct (At_word _ _ _ _ Y) as [NV FV]. destruct (uncorr (cat + 1) v) as (v0 & V0 & EV); [lia|exact NV|exact FV|]. subst v. apply word_cword in V0.
    destruct (At_find size cat t v0 y I V0 Y) as [G1 G2]. destruct (At_find size cat t' v0 y' I2 V0 Y') as [G3 G4]. rewrite (KEEP v0 y V0 G1) in G3 by lia. now injection G3.
Qed.
Print Assumptions C55_stable.

(* The rules of the Bidi algorithm do relocate: the positions handed out for four left-hand sides are not those which are found later. *)
Definition C55_lost (t0 : trie) (ws : list (list Z)) : option (list (list Z)) :=
  match alloc_words t0 ws with
  | Ok (ps, t) => Some (map fst (filter (fun x => match find t (fst x) with Ok q => negb (q =? snd x) && negb (q =? 0) | _ => false end) (combine ws ps)))
  | _ => None
  end.
Theorem C55_position_refuted : fits dictsize cMAX /\ match NewTinyHashTrie dictsize cMAX with
  | Some t0 => quiet_words t0 (map lhs all_rules) = false /\ C55_lost t0 (map lhs all_rules) = Some (map lhs [N1_5; N1_6; N1_8; N1_9])
  | None => False end.
Proof. split; [unfold fits; vm_compute; intuition congruence|]. vm_compute. split; reflexivity. Qed.
Print Assumptions C55_position_refuted.
Example C55_position_refuted_ex : lhs N1_6 = [cAN; cNI; cAN].
Proof. reflexivity. Qed.

(* On a frozen trie AllocPositionForWord finds what the iterator finds, and changes nothing. *)
Theorem C55_frozen size cat t0 ws ps t w : NewTinyHashTrie size cat = Some t0 -> fits size cat -> Forall (cword cat) ws -> alloc_words t0 ws = Ok (ps, t) -> cword cat w ->
  exists q, find t w = Ok q /\ AllocPositionForWord (Freeze t) w = Ok (q, Freeze t).
Proof.
  intros E0 FIT F E W. pose proof (reach size cat t0 E0 FIT ws ps t F E) as I. destruct (frozen_ok size (cat + 1) t w I (cword_word _ _ W)) as (q & E1 & E2). eauto.
Qed.
Print Assumptions C55_frozen.
Example C55_frozen_ex : match NewTinyHashTrie 139 46 with
  | Some t0 => match AllocPositionForWord t0 [13; 20] with Ok (p, t) => AllocPositionForWord (Freeze t) [13; 20] = Ok (p, Freeze t) /\ find t [13; 20] = Ok p /\ p <> 0 | _ => False end
  | None => False end.
Proof. vm_compute. repeat split; congruence. Qed.
