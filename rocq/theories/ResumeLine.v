(* ResumeLine.v -- line breaking can be resumed at every break. *)
From Coq Require Import List ZArith Lia Bool.
From Verif Require Import Base BreakSpec BreakSpecProofs Rows Line LineSum LineVerdict LineSpec LineCor LineAgree Resume.
Import ListNotations.
Open Scope Z_scope.

(* ---- the summary of the past at a break ---- *)
Definition feats_of (cs : list Z) : fstate := fst (Rows.run lnext st0 cs).
Definition fsteps (f : fstate) (cs : list Z) : fstate := fold_left fnext cs f.
Lemma fst_run : forall cs s, fst (Rows.run lnext s cs) = fsteps (fst s) cs.
Proof. induction cs as [|c cs IH]; intros s; [reflexivity|]. change (Rows.run lnext s (c :: cs)) with (Rows.run lnext (lnext s c) cs). rewrite IH. reflexivity. Qed.
Lemma fsteps_app f a b : fsteps f (a ++ b) = fsteps (fsteps f a) b.
Proof. apply fold_left_app. Qed.
Lemma fsteps_in cs : Forall (fun c => In c rclasses) cs -> In (fsteps f0 cs) feats.
Proof.
  intros F. change f0 with (fst st0). rewrite <- fst_run. assert (G : forall s, sok s -> sok (Rows.run lnext s cs)).
  { induction F as [|c cs H F IH]; intros s K; [exact K|]. change (Rows.run lnext s (c :: cs)) with (Rows.run lnext (lnext s c) cs). apply IH. now apply lnext_ok. }
  exact (proj1 (G st0 st0_ok)).
Qed.
Lemma verdict_next f b d d' : (d =? NU) = (d' =? NU) -> verdict f b d = verdict f b d'.
Proof. intros E. unfold verdict. rewrite E. reflexivity. Qed.
Lemma verdict_cases f b d : verdict f b d = true -> verdict f b NU || verdict f b 0 = true.
Proof.
  intros V. apply orb_true_iff. destruct (Z.eqb_spec d NU) as [->|N]; [auto|]. right. rewrite <- V. apply verdict_next. apply Z.eqb_neq in N. rewrite N. reflexivity.
Qed.
(* the code point behind a break leads to the same summary as at the start of a text *)
Lemma after_break f b d : In f feats -> In b rclasses -> verdict f b d = true -> fnext f b = fnext f0 b.
Proof.
  intros F B V. apply verdict_cases in V.
  assert (X : forall f rc, In f feats -> In rc rclasses -> negb (verdict f rc NU || verdict f rc 0) || feqb (fnext f rc) (fnext f0 rc) = true)
    by (apply (feats_all (fun f rc => negb (verdict f rc NU || verdict f rc 0) || feqb (fnext f rc) (fnext f0 rc))); vm_compute; reflexivity).
  specialize (X f b F B). rewrite V in X. apply feqb_eq. exact X.
Qed.
(* the look-ahead for a number does not reach over a break *)
Lemma before_break f b d d' : In f feats -> In b rclasses -> verdict (fnext f b) d d' = true -> verdict f b d = verdict f b 0.
Proof.
  intros F B V. destruct (Z.eqb_spec d NU) as [->|N]; [|apply verdict_next; apply Z.eqb_neq in N; rewrite N; reflexivity]. apply verdict_cases in V.
  assert (X : forall f rc, In f feats -> In rc rclasses -> negb (verdict (fnext f rc) NU NU || verdict (fnext f rc) NU 0) || eqb (verdict f rc NU) (verdict f rc 0) = true)
    by (apply (feats_all (fun f rc => negb (verdict (fnext f rc) NU NU || verdict (fnext f rc) NU 0) || eqb (verdict f rc NU) (verdict f rc 0))); vm_compute; reflexivity).
  specialize (X f b F B). rewrite V in X. apply eqb_prop. exact X.
Qed.

Section Text.
Context (table : Z -> Z -> bool) (comb : Z -> bool).
Notation cls := (lcls table comb).
Notation lbrk := (line_break code_break cls).
Lemma code_verdict l b r : lbrk l (b :: r) = verdict (fsteps f0 (map cls (rev l))) (cls b) (hd sot (map cls r)).
Proof.
  unfold line_break. cbn [map]. rewrite <- (verdict_code (map cls l) (cls b) (hd sot (map cls r)) (map cls r)); auto.
  - rewrite fst_run, map_rev. reflexivity.
  - apply classes_ok.
  - apply lcls_in.
Qed.
Lemma line_forgets t1 t2 : t2 <> [] -> lbrk (rev t1) t2 = true -> forgets lbrk t1 t2.
Proof.
  intros N B. destruct t2 as [|x t2]; [congruence|]. rewrite code_verdict, rev_involutive in B. split.
  - intros l r Nl Nr E. destruct r as [|b r]; [congruence|]. cbn [app]. rewrite !code_verdict, rev_involutive. destruct r as [|c r]; [|reflexivity].
    cbn [app map hd]. rewrite (verdict_next _ _ sot 0 eq_refl). subst t1. rewrite map_app, fsteps_app in B. cbn [map fsteps fold_left] in B.
    apply (before_break _ _ _ (hd sot (map cls t2))); [apply fsteps_in, classes_ok|apply lcls_in|exact B].
  - intros u r Nu Nr E. destruct r as [|b r]; [congruence|]. destruct u as [|y u]; [congruence|]. injection E as -> E.
    rewrite !code_verdict. rewrite rev_app_distr, !rev_involutive, map_app, fsteps_app. cbn [map fsteps fold_left].
    change (fold_left fnext (map cls u)) with (fun f => fsteps f (map cls u)). cbn beta. f_equal. f_equal.
    apply (after_break _ _ (hd sot (map cls t2))); [apply fsteps_in, classes_ok|apply lcls_in|exact B].
Qed.
Lemma line_resume text a b : segmentation lbrk text = a ++ b -> segmentation lbrk (List.concat a) = a /\ segmentation lbrk (List.concat b) = b.
Proof. intros E. apply (segmentation_parts _ _ _ _ E). intros t1 t2 _ _ N B. now apply line_forgets. Qed.
End Text.
