(* SegBlank.v -- what a segmenter shows before the first segment of a text. *)
From Coq Require Import List ZArith Lia Bool.
From Verif Require Import Base RuneWrite Segmenter SegSim SegFacade SegTheorems.
Import ListNotations.
Open Scope Z_scope.
Section Fresh.
Context {B : Type} (bstep : B -> Z -> B * Z * list Z).
Definition unborn (s : state (@Deque.deque atom) B) : Prop := dq s = None -> lastp s = (0, 0).
Lemma unborn_next b s r s' : unborn s -> next deque_ops bstep b s = Ok (r, s') -> unborn s'.
Proof.
  intros U H D. unfold next in H. cbv zeta in H.
  set (s0 := set_inUse match rdr s with Some _ => s | None => setErr ErrNotInitialized s end) in *.
  assert (U0 : dq s0 = dq s /\ lastp s0 = lastp s) by (unfold s0, setErr; destruct (rdr s); cbn; [auto|destruct (err s) as [[]|]; cbn; auto]).
  destruct U0 as [U1 U2]. clearbody s0.
  assert (D0 : dq s0 = None).
  { destruct (dq s0) as [d|] eqn:E; [exfalso|reflexivity].
    repeat match type of H with
    | (if ?x then _ else _) = _ => destruct x
    | rbind ?e _ = _ => let X := fresh in destruct e as [[[? ?] ?]| |] eqn:X || destruct e as [[? ?]| |] eqn:X; cbn [rbind] in H; try discriminate H
    | match ?x with _ => _ end = _ => destruct x
    end; try discriminate H; injection H as <- <-; cbn in D; try congruence. }
  rewrite D0 in H.
  repeat match type of H with
    | (if ?x then _ else _) = _ => destruct x
    end; try discriminate H; injection H as <- <-; rewrite D0 in U1; symmetry in U1; specialize (U U1); unfold setErr; try destruct (err s0) as [[]|]; cbn; congruence.
Qed.
Lemma unborn_history : forall os s s', unborn s -> history deque_ops bstep os s = Ok s' -> unborn s'.
Proof.
  induction os as [|o os IH]; intros s s' U H; [injection H as <-; exact U|]. cbn [history] in H.
  destruct (apply_op deque_ops bstep o s) as [s1| |] eqn:E; [|discriminate|discriminate]. cbn [rbind] in H. apply (IH s1 s'); [|exact H].
  destruct o; cbn [apply_op] in E.
  - unfold Init, init in E. cbn in E. destruct (dq s); [destruct (lift (Deque.Clear zeroAtom d)) as [d'| |]; try discriminate E|]; injection E as <-; intros X; cbn in X; discriminate.
  - unfold InitFromSlice, init in E. cbn in E. destruct (dq s); [destruct (lift (Deque.Clear zeroAtom d)) as [d'| |]; try discriminate E|]; injection E as <-; intros X; cbn in X; discriminate.
  - destruct (next deque_ops bstep (bound_of c) s) as [[r s2]| |] eqn:N; [|discriminate|discriminate]. injection E as <-. now apply (unborn_next _ _ _ _ U N).
  - injection E as <-. exact U.
  - unfold RuneBuffer in E. destruct (inUse s); [discriminate|]. destruct (zlen buf >? 0); injection E as <-; exact U.
Qed.
(* after Init nothing is shown *)
Lemma blank os bs s s1 : Forall op_ok os -> history deque_ops bstep os (NewSegmenter bs) = Ok s ->
  (exists rd, Init deque_ops rd s = Ok s1) \/ (exists b, InitFromSlice deque_ops b s = Ok s1) -> Text s1 = Ok [] /\ Penalties s1 = (0, 0).
Proof.
  intros Ho H I. assert (U : unborn s) by (apply (unborn_history os (NewSegmenter bs)); [intros _; reflexivity|exact H]).
  destruct (hist_state bstep os bs s Ho H) as (t & S & W & _). destruct (ssim_fields s t S) as (_ & _ & R & _).
  assert (W' : wf_rw (rbuf s)) by (rewrite R; exact W).
  destruct I as [(rd & I)|(b & I)].
  - unfold Init, init in I. cbn in I. destruct (dq s) eqn:D; [destruct (lift (Deque.Clear zeroAtom d)) as [d'| |]; try discriminate I|]; injection I as <-; unfold Text, Penalties; cbn; (split; [|auto]).
    all: unfold Reset, wf_rw in *; destruct (outnil (rbuf s)); cbn; [reflexivity|]; destruct (outcap (rbuf s) >? 0) eqn:G; cbn; [reflexivity|]; destruct (output (rbuf s)); [reflexivity|]; unfold zlen in W'; cbn in W'; lia.
  - unfold InitFromSlice, init in I. cbn in I. destruct (dq s) eqn:D; [destruct (lift (Deque.Clear zeroAtom d)) as [d'| |]; try discriminate I|]; injection I as <-; unfold Text, Penalties; cbn; (split; [|auto]).
    all: unfold Runes, zslice; cbn; destruct b; reflexivity.
Qed.
End Fresh.
