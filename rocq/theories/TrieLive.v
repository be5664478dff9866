(* TrieLive.v -- lookups in a trie that has not been frozen: bidi/trie/hashtrie.go.  Next calls the same
   advanceToChild as AllocPositionForWord, so a lookup stores what it looks for. *)
From Coq Require Import List ZArith Lia Bool.
From Verif Require Import Base Scrap Trie Rules TrieProofs TrieSteps TrieMove TrieWords.
Import ListNotations.
Open Scope Z_scope.

(* ti.Next: hashtrie.go:240-256, over any trie; the trie behind the pointer is returned as well. *)
Definition NextT (t : trie) (ti : titer) (c : Z) : res (Z * titer * trie) :=
  if negb (ti_live ti) then Ok (0, ti, t)
  else if ti_n ti =? 0
  then let p := correct t (u8 c) in
       let* a := ch_at t p in Ok (a, mkti true p 1, t)
  else let cc := correct t (u8 c) in
       let* (p, t) := advanceToChild t (ti_pos ti) cc (ti_n ti) in
       Ok (p, mkti (negb (p =? 0)) p (ti_n ti), t).

(* A client asking an iterator for the letters of a word: the last answer, and the trie afterwards. *)
Fixpoint walkT (t : trie) (ti : titer) (p : Z) (cs : list Z) : res (Z * trie) :=
  match cs with
  | [] => Ok (p, t)
  | c :: rest => let* (r, t) := NextT t ti c in walkT t (snd r) (fst r) rest
  end.

(* What a client may do with a trie before Freeze: store a word, or look for one with a new iterator. *)
Inductive request := Store (w : list Z) | Ask (w : list Z).
Definition word_of (r : request) : list Z := match r with Store w | Ask w => w end.
Definition serve (t : trie) (r : request) : res (Z * trie) :=
  match r with Store w => AllocPositionForWord t w | Ask w => walkT t Iterator0 0 w end.
Fixpoint serve_all (t : trie) (rs : list request) : res (list Z * trie) :=
  match rs with
  | [] => Ok ([], t)
  | r :: rest => let* (p, t) := serve t r in let* (ps, t) := serve_all t rest in Ok (p :: ps, t)
  end.

(* The answer is that of Next, in which the trie was left out; a frozen trie stays as it is. *)
Lemma NextT_answer t ti c : Next t ti c = let* (r, _) := NextT t ti c in Ok r.
Proof.
  unfold Next, NextT. destruct (negb (ti_live ti)); [reflexivity|]. destruct (ti_n ti =? 0).
  - destruct (ch_at t (correct t (u8 c))); reflexivity.
  - destruct (advanceToChild t (ti_pos ti) (correct t (u8 c)) (ti_n ti)) as [[p t']| |]; reflexivity.
Qed.
Lemma advance_frozen t p c n q t' : t_frozen t = true -> advanceToChild t p c n = Ok (q, t') -> t' = t.
Proof.
  intros F. unfold advanceToChild. rewrite F. destruct (link_at t p) as [lp| |]; cbn [rbind]; try discriminate. destruct (lp =? 0); [now injection 1|].
  destruct (ch_at t (u8 (lp + c))) as [a| |]; cbn [rbind]; try discriminate. destruct (a =? c); now injection 1.
Qed.
Lemma NextT_frozen t ti c r t' : t_frozen t = true -> NextT t ti c = Ok (r, t') -> t' = t.
Proof.
  intros F. unfold NextT. destruct (negb (ti_live ti)); [now injection 1|]. destruct (ti_n ti =? 0).
  - destruct (ch_at t (correct t (u8 c))); cbn [rbind]; [now injection 1|discriminate|discriminate].
  - destruct (advanceToChild t (ti_pos ti) (correct t (u8 c)) (ti_n ti)) as [[p t1]| |] eqn:E; cbn [rbind]; try discriminate. injection 1 as _ <-. now apply advance_frozen in E.
Qed.
Lemma walkT_frozen t w : t_frozen t = true -> forall ti p, walkT t ti p w = let* q := walk t ti p w in Ok (q, t).
Proof.
  intros F. induction w as [|c w IH]; intros ti p; cbn [walkT walk]; [reflexivity|]. rewrite NextT_answer.
  destruct (NextT t ti c) as [[[q ti'] t']| |] eqn:E; cbn [rbind]; try reflexivity. rewrite (NextT_frozen _ _ _ _ _ F E). apply IH.
Qed.

Section Live.
Context (N K : Z).
Notation inv := (inv N K).
Notation At := (At K).
Notation raw := (raw K).
Notation corr := (corr K).
Notation word := (word K).
Notation reached := (reached K).

Lemma walkT_ok w : forall t u p q, inv t -> At t u p -> Forall raw w -> (w = [] -> q = p) ->
  walkT t (mkti true p 1) q w = Panic \/ exists q' t', walkT t (mkti true p 1) q w = Ok (q', t') /\ inv t' /\ At t' (u ++ map corr w) q' /\
    (forall v, reached t' v <-> reached t v \/ exists a b, w = a ++ b /\ v = u ++ map corr a).
Proof.
  induction w as [|c w IH]; intros t u p q I U F HQ; cbn [walkT map].
  - right. rewrite (HQ eq_refl). exists p, t. split; [reflexivity|]. split; [exact I|]. rewrite app_nil_r. split; [exact U|].
    intros v. split; [auto|]. intros [X|(a & b & E & ->)]; auto. symmetry in E. apply app_eq_nil in E. destruct E as [-> _]. cbn. rewrite app_nil_r. exists p. exact U.
  - inversion F as [|? ? R F']; subst. pose proof (i_shape _ _ t I) as S. pose proof (s_K _ _ t S) as HK. pose proof (s_N _ _ t S) as HN.
    unfold NextT. cbn [ti_live ti_n ti_pos negb]. change (1 =? 0) with false. cbv iota. rewrite u8_id by (unfold TrieWords.raw in R; lia). rewrite (corr_ok N K t c S). assert (R' := corr_letter K c HK R).
    destruct (advance_ok N K t u p (corr c) 1 I U R') as [->|(q1 & t1 & -> & I1 & Q & W & _)]; [auto|]. cbn [rbind fst snd].
    assert (NZ : q1 <> 0). { destruct (At_node _ _ _ _ _ I1 Q) as [_ X]. pose proof (i_shape _ _ t1 I1) as S1. intros ->. pose proof (proj1 (i_root _ _ t1 I1)). lia. }
    replace (negb (q1 =? 0)) with true by (symmetry; apply negb_true_iff, Z.eqb_neq, NZ).
    destruct (IH t1 (u ++ [corr c]) q1 q1 I1 Q F' (fun _ => eq_refl)) as [->|(q' & t' & -> & I' & Q' & W')]; [auto|]. right. exists q', t'. split; [reflexivity|]. split; [exact I'|].
    rewrite <- app_assoc in Q'. split; [exact Q'|]. intros v. rewrite W', W. split.
    + intros [[X| ->]|(a & b & -> & ->)]; [auto| |].
      * right. exists [c], w. auto.
      * right. exists (c :: a), b. cbn [map app]. rewrite <- app_assoc. auto.
    + intros [X|(a & b & E & ->)]; [auto|]. destruct a as [|a0 a].
      * left. left. exists p. cbn. now rewrite app_nil_r.
      * injection E as <- E. right. exists a, b. cbn [map app]. rewrite <- app_assoc. auto.
Qed.

Lemma ask_ok t w : inv t -> word w ->
  walkT t Iterator0 0 w = Panic \/ exists q t', walkT t Iterator0 0 w = Ok (q, t') /\ inv t' /\ At t' (map corr w) q /\
    (forall v, word v -> reached t' (map corr v) <-> reached t (map corr v) \/ prefix v w).
Proof.
  intros I [NE F]. destruct w as [|c w]; [congruence|]. inversion F as [|? ? R F']; subst. pose proof (i_shape _ _ t I) as S. pose proof (s_K _ _ t S) as HK. pose proof (s_N _ _ t S) as HN.
  assert (R' := corr_letter K c HK R). assert (RL := R'). unfold TrieProofs.letter in RL.
  assert (E0 : NextT t Iterator0 c = Ok (corr c, mkti true (corr c) 1, t)).
  { unfold NextT, Iterator0. cbn [ti_live ti_n ti_pos negb Z.eqb]. rewrite u8_id by (unfold TrieWords.raw in R; lia). rewrite (corr_ok N K t c S).
    rewrite (ch_ok N K) by (auto; unfold TrieProofs.cell; lia). rewrite (i_top _ _ t I) by lia. reflexivity. }
  cbn [walkT]. rewrite E0. cbn [rbind fst snd].
  assert (U : At t [corr c] (corr c)) by (now constructor).
  destruct (walkT_ok w t _ _ (corr c) I U F' (fun _ => eq_refl)) as [->|(q & t' & -> & I' & Q & W)]; [auto|]. right. exists q, t'. split; [reflexivity|]. split; [exact I'|]. split; [exact Q|].
  intros v [NV FV]. rewrite W. split; (intros [X|X]; [auto|]).
  - destruct X as (a & b & -> & E). right. exists b. assert (v = c :: a); [|subst v; reflexivity]. apply (map_corr_inj K); auto. apply Forall_app in F'. constructor; tauto.
  - destruct X as (b & E). destruct v as [|d v]; [congruence|]. injection E as <- ->. right. exists v, b. auto.
Qed.

Lemma serve_ok t r : inv t -> word (word_of r) ->
  serve t r = Panic \/ exists q t', serve t r = Ok (q, t') /\ inv t' /\ At t' (map corr (word_of r)) q /\
    (forall v, word v -> reached t' (map corr v) <-> reached t (map corr v) \/ prefix v (word_of r)).
Proof.
  intros I W. destruct r as [w|w]; cbn [serve word_of] in *; [|now apply ask_ok].
  destruct (alloc_ok N K t w 0 I W eq_refl) as [->|(q & t' & -> & I' & A & R & _)]; [auto|]. right. exists q, t'. auto.
Qed.

Lemma serve_all_ok rs : forall t, inv t -> Forall word (map word_of rs) ->
  serve_all t rs = Panic \/ exists ps t', serve_all t rs = Ok (ps, t') /\ inv t' /\ length ps = length rs /\ Forall (fun p => 0 < p < N) ps /\
    (forall v, word v -> reached t' (map corr v) <-> reached t (map corr v) \/ exists w, In w (map word_of rs) /\ prefix v w).
Proof.
  induction rs as [|r rs IH]; intros t I F; cbn [serve_all map].
  - right. exists [], t. split; [reflexivity|]. split; [exact I|]. split; [reflexivity|]. split; [constructor|]. intros v _. split; [auto|]. intros [X|(w & [] & _)]. exact X.
  - cbn [map] in F. inversion F as [|? ? W F']; subst. destruct (serve_ok t r I W) as [->|(q & t1 & -> & I1 & Q & R1)]; [auto|]. cbn [rbind].
    destruct (IH t1 I1 F') as [->|(ps & t' & -> & I' & LN & PS & R')]; [auto|]. cbn [rbind]. right. exists (q :: ps), t'. split; [reflexivity|]. split; [exact I'|].
    split; [cbn [length]; congruence|]. split.
    + constructor; [|exact PS]. destruct (At_node _ _ _ _ _ I1 Q) as [X Y]. unfold TrieProofs.cell in X. assert (q <> 0); [|lia]. intros ->. pose proof (proj1 (i_root _ _ t1 I1)). lia.
    + intros v V. rewrite R', R1 by auto. split.
      * intros [[X|X]|(w' & X & Y)]; [auto| |]; right; [exists (word_of r)|exists w']; cbn [In]; auto.
      * intros [X|(w' & [<-|X] & Y)]; [auto|auto|]. right. eauto.
Qed.
End Live.
