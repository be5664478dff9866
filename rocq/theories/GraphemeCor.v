(* GraphemeCor.v -- consequences for Prepend characters and regional indicators. *)
From Coq Require Import List ZArith Lia Bool.
From Verif Require Import Base Grapheme GraphemeSpec BreakSpec BreakSpecProofs.
Import ListNotations.
Open Scope Z_scope.

(* without Prepend characters GB9b does not matter *)
Lemma no_prepend (cls : Z -> Z) text : Forall (fun r => cls r <> Prepend) text ->
  segmentation (gb_break false cls) text = segmentation (gb_break true cls) text.
Proof.
  intros H. apply segmentation_ext. intros l r Hl Hr E. unfold gb_break. destruct r as [|x r]; [congruence|].
  unfold gb_boundary. destruct (rev l) as [|a l'] eqn:El.
  - reflexivity.
  - cbn [map]. assert (Ha : cls a <> Prepend).
    { rewrite Forall_forall in H. apply H. rewrite <- E. apply in_or_app. left. apply in_rev. rewrite El. simpl. auto. }
    apply Z.eqb_neq in Ha. rewrite Ha. rewrite andb_false_r. reflexivity.
Qed.

(* a Prepend character is cut off from every letter *)
Lemma prepend_cut (cls : Z -> Z) l p x r : cls p = Prepend -> is_one_of (cls x) [Extend; ZWJ; SpacingMark] = false ->
  In (S (length l)) (bounds 0 (segmentation (gb_break false cls) (l ++ p :: x :: r))).
Proof.
  intros Hp Hx. apply segmentation_bounds; [rewrite app_length; simpl; lia|].
  rewrite firstn_app, skipn_app. rewrite (firstn_all2 l), (skipn_all2 l) by lia.
  replace (S (length l) - length l)%nat with 1%nat by lia. cbn [firstn skipn app]. rewrite rev_app_distr. cbn [rev app].
  unfold gb_break, gb_boundary. cbn [map]. rewrite Hp.
  change (Prepend =? CR) with false. change (newline_or_control Prepend) with false. change (Prepend =? cL) with false.
  change (is_one_of Prepend _) with false. change (Prepend =? ZWJ) with false. change (Prepend =? RI) with false. cbn [andb].
  unfold is_one_of in Hx. cbn in Hx. unfold is_one_of. cbn [existsb].
  destruct (cls x =? Extend) eqn:E1; [discriminate Hx|]. destruct (cls x =? ZWJ) eqn:E2; [discriminate Hx|].
  destruct (cls x =? SpacingMark) eqn:E3; [discriminate Hx|]. cbn [orb]. destruct (newline_or_control (cls x)); reflexivity.
Qed.

Lemma ri_run_app (cls : Z -> Z) : forall ris rest, Forall (fun r => cls r = RI) ris -> (forall c, hd_error rest = Some c -> cls c <> RI) ->
  ri_run (map cls (ris ++ rest)) = length ris.
Proof.
  induction 1 as [|x ris Hx _ IH]; intros Hr; cbn [app map ri_run].
  - destruct rest as [|c rest]; [reflexivity|]. cbn [map ri_run]. specialize (Hr c eq_refl). apply Z.eqb_neq in Hr. now rewrite Hr.
  - rewrite Hx. rewrite Z.eqb_refl. rewrite IH by auto. reflexivity.
Qed.

(* regional indicators pair up from the left *)
Lemma ri_pairs (cls : Z -> Z) pr l ris r k : Forall (fun x => cls x = RI) ris -> (forall c, hd_error (rev l) = Some c -> cls c <> RI) ->
  (0 < k < length ris)%nat ->
  In (length l + k)%nat (bounds 0 (segmentation (gb_break pr cls) (l ++ ris ++ r))) <-> Nat.even k = true.
Proof.
  intros Hr Hl Hk. rewrite segmentation_bounds by (rewrite !app_length; lia).
  rewrite firstn_app, skipn_app. rewrite (firstn_all2 l), (skipn_all2 l) by lia.
  replace (length l + k - length l)%nat with k by lia. rewrite firstn_app, skipn_app.
  replace (k - length ris)%nat with 0%nat by lia. cbn [firstn skipn]. rewrite app_nil_r. cbn [app].
  rewrite rev_app_distr.
  assert (F1 : Forall (fun x => cls x = RI) (rev (firstn k ris))).
  { apply Forall_rev. apply Forall_forall. intros x Hx. rewrite Forall_forall in Hr. apply Hr. rewrite <- (firstn_skipn k ris). apply in_or_app. auto. }
  assert (R : ri_run (map cls (rev (firstn k ris) ++ rev l)) = k).
  { rewrite ri_run_app by auto. rewrite rev_length, firstn_length. lia. }
  destruct (skipn k ris) as [|x t] eqn:Es; [apply (f_equal (@length _)) in Es; rewrite skipn_length in Es; simpl in Es; lia|].
  assert (Hx : cls x = RI). { rewrite Forall_forall in Hr. apply Hr. rewrite <- (firstn_skipn k ris), Es. apply in_or_app. simpl. auto. }
  cbn [app]. unfold gb_break. rewrite Hx. unfold gb_boundary.
  destruct (rev (firstn k ris)) as [|a u] eqn:Er.
  - apply (f_equal (@length _)) in Er. rewrite rev_length, firstn_length in Er. simpl in Er. lia.
  - pose proof (Forall_inv F1) as Ha. cbn beta in Ha. cbn [app map] in *. rewrite Ha in *.
    change (newline_or_control RI) with false. change (RI =? CR) with false. change (RI =? cL) with false. change (is_one_of RI _) with false.
    change (RI =? SpacingMark) with false. change (RI =? Prepend) with false. change (RI =? ZWJ) with false. change (RI =? RI) with true.
    change (RI =? LF) with false. change (RI =? cT) with false. change (RI =? Pictographic) with false. rewrite ?andb_false_r. cbn [andb]. rewrite R. rewrite <- Nat.negb_odd. destruct (Nat.odd k); split; intros X; try reflexivity; try discriminate X; exact X.
Qed.
