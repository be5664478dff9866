(* SegBusy.v -- when a segmenter is in use: since Init, a segment has been asked for. *)
From Coq Require Import List ZArith Lia Bool.
From Verif Require Import Base RuneWrite Segmenter SegSpec PrioQProofs SegProofs SegInv SegNext SegCut SegSim SegFacade.
From Verif Require Deque.
From Verif Require Import SegTheorems.
Import ListNotations.
Open Scope Z_scope.

(* the last of the calls that begin a text or ask for a segment *)
Definition busy_op (was : bool) (o : op) : bool :=
  match o with OInit _ | OSlice _ => false | OCall _ => true | OBoz _ _ | OBuffer _ _ _ => was end.
Definition busy (os : list op) : bool := fold_left busy_op os false.

Section Busy.
Context {B : Type} (bstep : B -> Z -> B * Z * list Z).
Notation St := (state (@Deque.deque atom) B).

Lemma readRune_inUse (s : St) d s1 d1 e : readRune deque_ops s d = Ok (s1, d1, e) -> inUse s1 = inUse s.
Proof.
  unfold readRune. intros H. destruct (atEOF s); [injection H as <- <- <-; reflexivity|]. destruct (rdr s) as [rd|]; [|discriminate].
  destruct (items rd) as [|[r sz] rest].
  - destruct (fin rd); try (injection H as <- <- <-; reflexivity).
    destruct (lift (q_push deque_ops d eotAtom)); [|discriminate|discriminate]. injection H as <- <- <-. reflexivity.
  - destruct (lift (q_push deque_ops d (mkatom r 0 0))); [|discriminate|discriminate]. injection H as <- <- <-. reflexivity.
Qed.
Lemma readEnough_inUse : forall f (s : St) d b s1 d1 e, readEnough deque_ops bstep f s d b = Ok (s1, d1, e) -> inUse s1 = inUse s.
Proof.
  induction f as [|f IH]; intros s d b s1 d1 e H; cbn [readEnough] in H.
  - destruct (bpos s <? 0); [discriminate|]. injection H as <- <- <-. reflexivity.
  - destruct (bpos s <? 0); [|injection H as <- <- <-; reflexivity]. destruct (pos s - lam s >? b); [injection H as <- <- <-; reflexivity|].
    destruct (readRune deque_ops s d) as [[[s2 d2] e2]| |] eqn:R; [|discriminate|discriminate]. cbn [rbind] in H. apply readRune_inUse in R.
    destruct e2; [injection H as <- <- <-; exact R|].
    destruct (lift (q_last deque_ops d2)) as [a| |]; [|discriminate|discriminate]. cbn [rbind] in H.
    destruct (feed deque_ops bstep false (brks s2) (ar a) 0 d2) as [[[bs lm] d3]| |]; [|discriminate|discriminate]. cbn [rbind] in H.
    destruct (findBreakOpportunity deque_ops s2 d3 (q_len deque_ops d2 - lm) (bound_dist b (pos s2) (q_len deque_ops d2))) as [bp| |]; [|discriminate|discriminate]. cbn [rbind] in H.
    apply IH in H. rewrite H. exact R.
Qed.
Lemma getFront_inUse (s : St) d b s1 d1 : getFrontSegment deque_ops s d b = Ok (s1, d1) -> inUse s1 = inUse s.
Proof.
  unfold getFrontSegment. cbv zeta. intros H.
  destruct (Z.min (q_len deque_ops d - 1) (bpos s) <? 0); [discriminate|].
  match type of H with (if ?x then _ else _) = _ => destruct x end; [injection H as <- <-; reflexivity|].
  match type of H with rbind ?e _ = _ => destruct e as [[[d' w'] lp]| |]; [|discriminate|discriminate] end. cbn [rbind] in H.
  match type of H with rbind ?e _ = _ => destruct e as [bp| |]; [|discriminate|discriminate] end. injection H as <- <-. reflexivity.
Qed.
Lemma next_inUse b (s : St) r s' : next deque_ops bstep b s = Ok (r, s') -> inUse s' = true.
Proof.
  unfold next. cbv zeta. set (s0 := set_inUse _). assert (U : inUse s0 = true) by reflexivity. clearbody s0. intros H.
  assert (F : forall d, (let* (s2, d2) := getFrontSegment deque_ops s0 d b in Ok (true, set_dq d2 s2)) = Ok (r, s') -> inUse s' = true).
  { intros d X. destruct (getFrontSegment deque_ops s0 d b) as [[s2 d2]| |] eqn:G; [|discriminate|discriminate]. injection X as <- <-. cbn. now rewrite (getFront_inUse _ _ _ _ _ G). }
  destruct (atEOF s0); cbn [negb] in H.
  - destruct (bpos s0 <? 0); [injection H as <- <-; exact U|]. destruct (dq s0) as [d|]; [|discriminate]. exact (F d H).
  - destruct (bpos s0 <? 0).
    + destruct (dq s0) as [d|]; [|destruct (pos s0 - lam s0 >? b); [|discriminate]; injection H as <- <-; exact U].
      destruct (readEnough deque_ops bstep (read_fuel s0) s0 d b) as [[[s1 d1] e]| |] eqn:R; [|discriminate|discriminate]. cbn [rbind] in H. apply readEnough_inUse in R.
      assert (U1 : inUse s1 = true) by congruence.
      assert (K : (if pos s1 - q_len deque_ops d1 >? b then Ok (false, set_dq d1 s1)
                   else if bpos s1 <? 0 then Ok (false, set_rbuf (Reset (rbuf s1) None) (set_dq d1 s1))
                   else let* (s2, d2) := getFrontSegment deque_ops (set_dq d1 s1) d1 b in Ok (true, set_dq d2 s2)) = Ok (r, s') -> inUse s' = true).
      { intros X. destruct (pos s1 - q_len deque_ops d1 >? b); [injection X as <- <-; exact U1|]. destruct (bpos s1 <? 0); [injection X as <- <-; exact U1|].
        destruct (getFrontSegment deque_ops (set_dq d1 s1) d1 b) as [[s2 d2]| |] eqn:G; [|discriminate|discriminate]. injection X as <- <-. cbn. rewrite (getFront_inUse _ _ _ _ _ G). exact U1. }
      destruct e as [[]|]; try exact (K H); injection H as <- <-; exact U1.
    + destruct (dq s0) as [d|]; [|discriminate]. destruct (pos s0 - q_len deque_ops d >? b); [injection H as <- <-; exact U|]. exact (F d H).
Qed.

(* before the first Init, nothing has been asked for with success *)
Definition raw (s : St) : Prop := dq s = None -> inUse s = false /\ bpos s = 0 /\ atEOF s = false.
Lemma raw_op o (s s' : St) : raw s -> apply_op deque_ops bstep o s = Ok s' -> raw s' /\ inUse s' = busy_op (inUse s) o.
Proof.
  intros U E. destruct o; cbn [apply_op busy_op] in *.
  - unfold Init, init in E. cbn in E. destruct (dq s) eqn:D; [destruct (lift (Deque.Clear zeroAtom d)) as [d'| |]; try discriminate E|]; injection E as <-; (split; [intros X; discriminate|cbn]).
    + reflexivity.
    + exact (proj1 (U D)).
  - unfold InitFromSlice, init in E. cbn in E. destruct (dq s) eqn:D; [destruct (lift (Deque.Clear zeroAtom d)) as [d'| |]; try discriminate E|]; injection E as <-; (split; [intros X; discriminate|cbn]).
    + reflexivity.
    + exact (proj1 (U D)).
  - destruct (next deque_ops bstep (bound_of c) s) as [[r s2]| |] eqn:N; [|discriminate|discriminate]. injection E as <-. split; [|exact (next_inUse _ _ _ _ N)].
    assert (D : dq s <> None).
    { intros D. destruct (U D) as (_ & P & A). unfold next in N. cbv zeta in N.
      destruct (rdr s); cbn [setErr set_inUse atEOF bpos dq] in N; rewrite A, P, D in N; discriminate N. }
    intros D'. exfalso. unfold next in N. cbv zeta in N. set (s0 := set_inUse _) in N.
    assert (D0 : dq s0 <> None) by (unfold s0, setErr; destruct (rdr s); exact D). clearbody s0. destruct (dq s0) as [d|] eqn:E0; [|congruence].
    repeat match type of N with
    | (if ?x then _ else _) = _ => destruct x
    | rbind ?e _ = _ => let X := fresh in destruct e as [[[? ?] ?]| |] eqn:X || destruct e as [[? ?]| |] eqn:X; cbn [rbind] in N; try discriminate N
    | match ?x with _ => _ end = _ => destruct x
    end; try discriminate N; injection N as <- <-; cbn in D'; congruence.
  - injection E as <-. split; [exact U|reflexivity].
  - unfold RuneBuffer in E. destruct (inUse s) eqn:I; [discriminate|]. destruct (zlen buf >? 0); injection E as <-; cbn; (split; [|auto]); intros X; destruct (U X) as (_ & Y); cbn; auto.
Qed.
Lemma in_use : forall os bs (s : St), history deque_ops bstep os (NewSegmenter bs) = Ok s -> inUse s = busy os.
Proof.
  intros os bs s H. unfold busy.
  assert (G : forall os (s0 s : St), raw s0 -> history deque_ops bstep os s0 = Ok s -> inUse s = fold_left busy_op os (inUse s0)).
  { clear. induction os as [|o os IH]; intros s0 s R H; [injection H as <-; reflexivity|]. cbn [history fold_left] in *.
    destruct (apply_op deque_ops bstep o s0) as [s1| |] eqn:E; [|discriminate|discriminate]. cbn [rbind] in H.
    destruct (raw_op o s0 s1 R E) as [R1 I1]. rewrite (IH s1 s R1 H), I1. reflexivity. }
  apply (G os (NewSegmenter bs) s); [|exact H]. intros _. repeat split.
Qed.
End Busy.

(* The capacity of the buffer and its greatest size: those of the last call of RuneBuffer with a
   non-empty slice; 4096 runes that are not extended, by default. *)
Definition buffer_op (was : Z * Z) (o : op) : Z * Z :=
  match o with OBuffer (_ :: _) cap max => (cap, max) | _ => was end.
Definition buffer_of (os : list op) : Z * Z := fold_left buffer_op os (4096, 0).

Definition holds (b : Z * Z) (w : runewrite) : Prop :=
  maxSegLen w = snd b /\
  if outnil w then b = (4096, 0) /\ outcap w = 0 /\ output w = []
  else fst b <= outcap w /\ Z.max (outcap w) (snd b) = Z.max (fst b) (snd b) /\ zlen (output w) <= outcap w.
Lemma holds_write b w r : holds b w -> holds b (fst (WriteRune w r)).
Proof.
  unfold holds, WriteRune. intros [M H]. destruct (backing w); cbn; [auto|].
  destruct (outcap w =? zlen (output w)) eqn:F.
  - destruct (outcap w >=? maxSegLen w) eqn:G; cbn; [auto|]. split; [exact M|].
    destruct (outnil w); [destruct H as (-> & X & Y); cbn in M; lia|].
    unfold zlen in *. rewrite app_length. cbn [length]. unfold startBufSize.
    destruct (Z.max (outcap w + 4096) (Z.of_nat (length (output w)) + 1) >? maxSegLen w) eqn:N; lia.
  - cbn. split; [exact M|]. destruct (outnil w); [destruct H as (-> & X & Y); rewrite X, Y in F; discriminate F|].
    unfold zlen in *. rewrite app_length. cbn [length]. lia.
Qed.
Lemma holds_mark b w : holds b w -> holds b (SetMark w).
Proof.
  unfold holds, SetMark. intros [M H]. destruct (backing w); cbn; [auto|]. split; [exact M|]. destruct (outnil w); [tauto|]. unfold zlen in *. cbn. lia.
Qed.
Lemma holds_reset b w o : holds b w -> holds b (Reset w o).
Proof.
  unfold holds, Reset. intros [M H]. destruct o; [|destruct (outnil w) eqn:N]; cbn.
  - split; [exact M|]. destruct (outnil w); [destruct H as (-> & X & Y); rewrite X; cbn; auto|]. destruct (outcap w >? 0) eqn:G; unfold zlen in *; cbn [length]; lia.
  - destruct H as (-> & _). split; [exact M|]. cbn. unfold startBufSize. lia.
  - split; [exact M|]. destruct (outcap w >? 0) eqn:G; unfold zlen in *; cbn [length]; lia.
Qed.

Section Limit.
Context {B : Type} (bstep : B -> Z -> B * Z * list Z).
Notation St := (state (@Deque.deque atom) B).
Lemma holds_pop b : forall n (d : @Deque.deque atom) w lp d' w' lp', holds b w -> pop_loop deque_ops n d w lp = Ok (d', w', lp') -> holds b w'.
Proof.
  induction n as [|n IH]; intros d w lp d' w' lp' H E; cbn [pop_loop] in E; [injection E as <- <- <-; exact H|].
  destruct (lift (q_pop deque_ops d)) as [[a d1]| |]; [|discriminate|discriminate]. cbn [rbind] in E.
  apply (IH _ _ _ _ _ _ (holds_write b w (ar a) H) E).
Qed.
Lemma holds_front b (s : St) d bd s1 d1 : holds b (rbuf s) -> getFrontSegment deque_ops s d bd = Ok (s1, d1) -> holds b (rbuf s1).
Proof.
  unfold getFrontSegment. cbv zeta. intros W H.
  destruct (Z.min (q_len deque_ops d - 1) (bpos s) <? 0); [discriminate|].
  match type of H with (if ?x then _ else _) = _ => destruct x end; [injection H as <- <-; now apply holds_mark|].
  match type of H with rbind ?e _ = _ => destruct e as [[[d' w'] lp]| |] eqn:P; [|discriminate|discriminate] end. cbn [rbind] in H.
  match type of H with rbind ?e _ = _ => destruct e as [bp| |]; [|discriminate|discriminate] end. injection H as <- <-. cbn.
  apply (holds_pop b _ _ _ _ _ _ _ (holds_mark b _ W) P).
Qed.
Lemma readRune_rbuf (s : St) d s1 d1 e : readRune deque_ops s d = Ok (s1, d1, e) -> rbuf s1 = rbuf s.
Proof.
  unfold readRune. intros H. destruct (atEOF s); [injection H as <- <- <-; reflexivity|]. destruct (rdr s) as [rd|]; [|discriminate].
  destruct (items rd) as [|[r sz] rest].
  - destruct (fin rd); try (injection H as <- <- <-; reflexivity).
    destruct (lift (q_push deque_ops d eotAtom)); [|discriminate|discriminate]. injection H as <- <- <-. reflexivity.
  - destruct (lift (q_push deque_ops d (mkatom r 0 0))); [|discriminate|discriminate]. injection H as <- <- <-. reflexivity.
Qed.
Lemma readEnough_rbuf : forall f (s : St) d b s1 d1 e, readEnough deque_ops bstep f s d b = Ok (s1, d1, e) -> rbuf s1 = rbuf s.
Proof.
  induction f as [|f IH]; intros s d b s1 d1 e H; cbn [readEnough] in H.
  - destruct (bpos s <? 0); [discriminate|]. injection H as <- <- <-. reflexivity.
  - destruct (bpos s <? 0); [|injection H as <- <- <-; reflexivity]. destruct (pos s - lam s >? b); [injection H as <- <- <-; reflexivity|].
    destruct (readRune deque_ops s d) as [[[s2 d2] e2]| |] eqn:R; [|discriminate|discriminate]. cbn [rbind] in H. apply readRune_rbuf in R.
    destruct e2; [injection H as <- <- <-; exact R|].
    destruct (lift (q_last deque_ops d2)) as [a| |]; [|discriminate|discriminate]. cbn [rbind] in H.
    destruct (feed deque_ops bstep false (brks s2) (ar a) 0 d2) as [[[bs lm] d3]| |]; [|discriminate|discriminate]. cbn [rbind] in H.
    destruct (findBreakOpportunity deque_ops s2 d3 (q_len deque_ops d2 - lm) (bound_dist b (pos s2) (q_len deque_ops d2))) as [bp| |]; [|discriminate|discriminate]. cbn [rbind] in H.
    apply IH in H. rewrite H. exact R.
Qed.
Lemma holds_next b bd (s : St) r s' : holds b (rbuf s) -> next deque_ops bstep bd s = Ok (r, s') -> holds b (rbuf s').
Proof.
  unfold next. cbv zeta. set (s0 := set_inUse _). intros W0 H. assert (W : holds b (rbuf s0)) by (unfold s0, setErr; destruct (rdr s); exact W0). clearbody s0.
  assert (F : forall d, (let* (s2, d2) := getFrontSegment deque_ops s0 d bd in Ok (true, set_dq d2 s2)) = Ok (r, s') -> holds b (rbuf s')).
  { intros d X. destruct (getFrontSegment deque_ops s0 d bd) as [[s2 d2]| |] eqn:G; [|discriminate|discriminate]. injection X as <- <-. cbn. exact (holds_front _ _ _ _ _ _ W G). }
  destruct (atEOF s0); cbn [negb] in H.
  - destruct (bpos s0 <? 0); [injection H as <- <-; exact (holds_reset b _ None W)|]. destruct (dq s0) as [d|]; [|discriminate]. exact (F d H).
  - destruct (bpos s0 <? 0).
    + destruct (dq s0) as [d|]; [|destruct (pos s0 - lam s0 >? bd); [|discriminate]; injection H as <- <-; exact (holds_reset b _ None W)].
      destruct (readEnough deque_ops bstep (read_fuel s0) s0 d bd) as [[[s1 d1] e]| |] eqn:R; [|discriminate|discriminate]. cbn [rbind] in H. apply readEnough_rbuf in R.
      assert (U1 : holds b (rbuf s1)) by congruence.
      assert (K : (if pos s1 - q_len deque_ops d1 >? bd then Ok (false, set_dq d1 s1)
                   else if bpos s1 <? 0 then Ok (false, set_rbuf (Reset (rbuf s1) None) (set_dq d1 s1))
                   else let* (s2, d2) := getFrontSegment deque_ops (set_dq d1 s1) d1 bd in Ok (true, set_dq d2 s2)) = Ok (r, s') -> holds b (rbuf s')).
      { intros X. destruct (pos s1 - q_len deque_ops d1 >? bd); [injection X as <- <-; exact U1|]. destruct (bpos s1 <? 0); [injection X as <- <-; exact (holds_reset b _ None U1)|].
        destruct (getFrontSegment deque_ops (set_dq d1 s1) d1 bd) as [[s2 d2]| |] eqn:G; [|discriminate|discriminate]. injection X as <- <-. cbn. exact (holds_front b (set_dq d1 s1) _ _ _ _ U1 G). }
      destruct e as [[]|]; try exact (K H); injection H as <- <-; exact (holds_reset b _ None U1).
    + destruct (dq s0) as [d|]; [|discriminate]. destruct (pos s0 - q_len deque_ops d >? bd); [injection H as <- <-; exact W|]. exact (F d H).
Qed.
Lemma holds_op b o (s s' : St) : op_ok o -> holds b (rbuf s) -> apply_op deque_ops bstep o s = Ok s' -> holds (buffer_op b o) (rbuf s').
Proof.
  intros K W E. destruct o; cbn [apply_op buffer_op] in *.
  - unfold Init, init in E. cbn in E. destruct (dq s) eqn:D; [destruct (lift (Deque.Clear zeroAtom d)) as [d'| |]; try discriminate E|]; injection E as <-; exact (holds_reset b _ None W).
  - unfold InitFromSlice, init in E. cbn in E. destruct (dq s) eqn:D; [destruct (lift (Deque.Clear zeroAtom d)) as [d'| |]; try discriminate E|]; injection E as <-; exact (holds_reset b _ (Some _) W).
  - destruct (next deque_ops bstep (bound_of c) s) as [[r s2]| |] eqn:N; [|discriminate|discriminate]. injection E as <-. exact (holds_next _ _ _ _ _ W N).
  - injection E as <-. exact W.
  - unfold RuneBuffer in E. destruct (inUse s); [discriminate|]. destruct buf as [|x buf]; [injection E as <-; exact W|].
    replace (zlen (x :: buf) >? 0) with true in E by reflexivity. injection E as <-. cbn [op_ok] in K. unfold holds. cbn [maxSegLen outnil outcap output fst snd rbuf]. split; [reflexivity|]. split; [apply Z.le_refl|]. split; [reflexivity|exact K].
Qed.
Lemma holds_history os bs (s : St) : Forall op_ok os -> history deque_ops bstep os (NewSegmenter bs) = Ok s -> holds (buffer_of os) (rbuf s).
Proof.
  intros K H. unfold buffer_of.
  assert (G : forall os b (s0 s : St), Forall op_ok os -> holds b (rbuf s0) -> history deque_ops bstep os s0 = Ok s -> holds (fold_left buffer_op os b) (rbuf s)).
  { clear. induction os as [|o os IH]; intros b s0 s K W H; [injection H as <-; exact W|]. cbn [history fold_left] in *.
    destruct (apply_op deque_ops bstep o s0) as [s1| |] eqn:E; [|discriminate|discriminate]. cbn [rbind] in H.
    apply (IH _ s1 s (Forall_inv_tail K)); [|exact H]. exact (holds_op b o s0 s1 (Forall_inv K) W E). }
  apply (G os _ (NewSegmenter bs) s K); [|exact H]. repeat split.
Qed.
Lemma limit_history os bs (s : St) : Forall op_ok os -> history deque_ops bstep os (NewSegmenter bs) = Ok s ->
  init_limit (rbuf s) = Z.max (fst (buffer_of os)) (snd (buffer_of os)).
Proof.
  intros K H. destruct (holds_history os bs s K H) as [M W]. unfold init_limit, SegNext.limit, Reset. destruct (outnil (rbuf s)); cbn.
  - destruct W as (E & _). rewrite E in *. rewrite M. reflexivity.
  - rewrite M. lia.
Qed.

(* the buffer is set between Init and the first segment *)
Lemma buffer_cut os bs (s : St) its n x buf cap mx :
  Forall op_ok os -> history deque_ops bstep os (NewSegmenter bs) = Ok s ->
  Forall (fun it => 1 <= snd it) its -> sizes its < MaxInt ->
  obeys (matrix bstep (brks s) (map fst its ++ [0])) -> (length its + 1 < n)%nat -> zlen (x :: buf) <= cap ->
  exists s1 s2 s', Init deque_ops (mkrd its EOF) s = Ok s1 /\ RuneBuffer (x :: buf) cap mx s1 = Ok s2 /\
    loop deque_ops bstep n s2 = Ok (map (fun x => (firstn (Z.to_nat (Z.max cap mx)) (fst x), snd x)) (spec_of bstep (boz s) (brks s) (map fst its)), true, s').
Proof.
  intros Ho H Sz Tt Ob Hn Hc. destruct (hist_state bstep os bs s Ho H) as (t & S & Hi).
  destruct (reader_start bstep s t (mkrd its EOF) S Hi) as (s1 & t1 & I & S1 & A & C & Er). cbn [items fin] in A.
  assert (U : inUse s1 = false).
  { assert (H1 : history deque_ops bstep (os ++ [OInit (mkrd its EOF)]) (NewSegmenter bs) = Ok s1).
    { clear - H I. revert H. generalize (NewSegmenter (Q := @Deque.deque atom) bs). induction os as [|o os IH]; intros z H; cbn [history app] in *.
      - injection H as ->. cbn [apply_op]. rewrite I. reflexivity.
      - destruct (apply_op deque_ops bstep o z) as [z1| |]; [|discriminate|discriminate]. cbn [rbind] in *. exact (IH z1 H). }
    rewrite (in_use bstep _ _ _ H1). unfold busy. rewrite fold_left_app. reflexivity. }
  pose proof (sim_RuneBuffer (x :: buf) cap mx s1 t1 S1) as R. unfold RuneBuffer in R at 1. rewrite U in R.
  replace (zlen (x :: buf) >? 0) with true in R by reflexivity.
  assert (U1 : inUse t1 = false) by (rewrite <- U; symmetry; unfold ssim in S1; tauto).
  unfold RuneBuffer in R. rewrite U1 in R. replace (zlen (x :: buf) >? 0) with true in R by reflexivity. cbn [rrel] in R.
  match type of R with ssim ?a ?b => set (s2 := a) in *; set (t2 := b) in * end.
  assert (E2 : RuneBuffer (x :: buf) cap mx s1 = Ok s2) by (unfold RuneBuffer; rewrite U; reflexivity).
  rewrite <- (irunes_EOF its) in Ob. fold (mat bstep (brks s) its EOF) in Ob.
  pose proof (obeys_strict (ins its EOF) _ Ob) as St.
  assert (A2 : at_ bstep (brks s) its EOF (boz s) 0 0 t2).
  { destruct A as [(d & D & G0) P]. split; [|exact P]. exists d. split; [exact D|]. apply (G_same _ _ _ _ _ _ _ _ _ _ G0); reflexivity. }
  assert (C2 : copying (Z.max cap mx) (rbuf t2)).
  { unfold copying, limit. destruct C as (C & _). cbn. repeat split; auto. }
  destruct (loop_cut bstep (brks s) its EOF (boz s) Sz Tt (strict_conf _ _ _ St) (Some (Z.max cap mx)) n 0 0 t2 A2 C2)
    as (outs & t3 & E & O1 & O2 & _ & _ & Er2).
  { rewrite N_len. lia. }
  { intros j p Hj. lia. }
  { discriminate. }
  destruct (loop_transfer bstep n s2 t2 _ R E) as (s' & E' & S'). exists s1, s2, s'. split; [exact I|]. split; [exact E2|]. cbn [fst snd] in *.
  rewrite E'. do 3 f_equal. apply same_pairs.
  - rewrite O1, map_map. cbn [fst view]. rewrite spec_impl. rewrite <- (irunes_EOF its). reflexivity.
  - rewrite (O2 St), map_map. cbn [snd]. rewrite spec_impl. rewrite <- (irunes_EOF its). reflexivity.
Qed.
End Limit.
