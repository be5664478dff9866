(* ResumeGrapheme.v -- grapheme clusters can be resumed at every boundary. *)
From Coq Require Import List ZArith Lia Bool.
From Verif Require Import Base Grapheme GraphemeSpec BreakSpec BreakSpecProofs Resume.
Import ListNotations.
Open Scope Z_scope.

Lemma before_extend p L x : gb_boundary p L x = true -> is_one_of x [Extend; ZWJ] = true -> pict_extend L = false.
Proof.
  intros B X. destruct L as [|a L]; [reflexivity|]. unfold gb_boundary in B.
  assert (N : newline_or_control a = true).
  { destruct (newline_or_control a); [reflexivity|]. rewrite X in B.
    assert (Nx : newline_or_control x = false) by (unfold is_one_of, existsb in X; rewrite !orb_true_iff, !Z.eqb_eq in X; destruct X as [->|[->|X]]; [reflexivity|reflexivity|discriminate]).
    rewrite Nx in B. repeat match type of B with context [if ?b then false else _] => destruct b end; discriminate. }
  unfold newline_or_control, is_one_of, existsb in N. rewrite !orb_true_iff, !Z.eqb_eq in N. cbn [pict_extend].
  destruct N as [->|[->|[->|N]]]; [reflexivity|reflexivity|reflexivity|discriminate].
Qed.
Lemma pict_forgets p L x V : gb_boundary p L x = true -> pict_extend (V ++ x :: L) = pict_extend (V ++ [x]).
Proof.
  intros B. induction V as [|v V IH]; cbn [app pict_extend].
  - destruct (Z.eqb_spec x Extend) as [->|]; [|reflexivity]. exact (before_extend p L Extend B eq_refl).
  - destruct (v =? Extend); [exact IH|reflexivity].
Qed.
Lemma ri_forgets p L x V : gb_boundary p L x = true -> Nat.odd (ri_run (V ++ x :: L)) = Nat.odd (ri_run (V ++ [x])).
Proof.
  intros B. induction V as [|v V IH]; cbn [app ri_run].
  - destruct (Z.eqb_spec x RI) as [->|]; [|reflexivity]. rewrite Nat.odd_succ, <- Nat.negb_odd.
    assert (E : Nat.odd (ri_run L) = false); [|now rewrite E].
    destruct L as [|a L]; [reflexivity|]. unfold gb_boundary in B. destruct (Z.eqb_spec a RI) as [->|N].
    + destruct (Nat.odd (ri_run (RI :: L))); [|reflexivity]. exfalso. revert B.
      repeat match goal with |- (if ?b then false else ?r) = true -> False => let v := eval vm_compute in b in change b with v; cbv iota end.
      destruct p; vm_compute; discriminate.
    + cbn [ri_run]. destruct (Z.eqb_spec a RI); [contradiction|reflexivity].
  - destruct (v =? RI); [|reflexivity]. rewrite !Nat.odd_succ, <- !Nat.negb_odd. now rewrite IH.
Qed.
Lemma last_split {A} (l : list A) : l <> [] -> exists V x, l = V ++ [x].
Proof. intros N. destruct (exists_last N) as (V & x & E). eauto. Qed.

Lemma gb_forgets p L V x c : gb_boundary p L x = true -> gb_boundary p ((V ++ [x]) ++ L) c = gb_boundary p (V ++ [x]) c.
Proof.
  intros B. rewrite <- app_assoc. cbn [app]. pose proof (ri_forgets p L x V B) as R. destruct V as [|a V]; cbn [app] in *.
  - unfold gb_boundary. rewrite R. cbn [pict_extend]. destruct (Z.eqb_spec x ZWJ) as [->|]; [|reflexivity].
    rewrite (before_extend p L ZWJ B eq_refl). reflexivity.
  - unfold gb_boundary. rewrite R, (pict_forgets p L x V B). reflexivity.
Qed.
Lemma grapheme_forgets p cls t1 t2 : t2 <> [] -> gb_break p cls (rev t1) t2 = true -> forgets (gb_break p cls) t1 t2.
Proof.
  intros N B. split.
  - intros l r _ Nr _. destruct r; [congruence|reflexivity].
  - intros u r Nu Nr E. destruct r as [|c r]; [congruence|]. unfold gb_break. rewrite map_app. destruct u as [|x u]; [congruence|].
    cbn [rev]. rewrite map_app. cbn [map]. apply gb_forgets. subst t2. exact B.
Qed.
Lemma grapheme_resume p cls text a b : segmentation (gb_break p cls) text = a ++ b ->
  segmentation (gb_break p cls) (List.concat a) = a /\ segmentation (gb_break p cls) (List.concat b) = b.
Proof. intros E. apply (segmentation_parts _ _ _ _ E). intros t1 t2 _ _ N B. now apply grapheme_forgets. Qed.
