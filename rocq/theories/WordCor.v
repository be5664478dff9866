(* WordCor.v -- consequences: WB7b without ignored characters, regional indicators. *)
From Coq Require Import List ZArith Lia Bool.
From Verif Require Import Base Words WordSpec BreakSpec BreakSpecProofs.
Import ListNotations.
Open Scope Z_scope.

(* no ignored character follows a double quote *)
Fixpoint plain_quotes (cls : Z -> Z) (text : list Z) : bool :=
  match text with
  | r :: t => negb ((cls r =? Double_Quote) && match t with x :: _ => extend (cls x) | [] => false end) && plain_quotes cls t
  | [] => true
  end.
Lemma plain_app cls : forall l r, plain_quotes cls (l ++ r) = true -> plain_quotes cls r = true.
Proof. induction l as [|x l IH]; intros r H; auto. cbn [app plain_quotes] in H. apply andb_true_iff in H. apply IH. tauto. Qed.

Lemma wb7b_plain cls text : plain_quotes cls text = true ->
  segmentation (wb_break true cls) text = segmentation (wb_break false cls) text.
Proof.
  intros H. apply segmentation_ext. intros l r Hl Hr E. unfold wb_break, wb_boundary.
  destruct (map cls (rev l)) as [|a left]; [reflexivity|]. destruct r as [|x r]; [reflexivity|]. cbn [map].
  rewrite <- E in H. apply plain_app in H. cbn [plain_quotes] in H. apply andb_true_iff in H. destruct H as [H _].
  destruct (Z.eqb_spec (cls x) Double_Quote) as [Ex|]; [|rewrite !andb_false_r; reflexivity].
  assert (A : match map cls r with d :: _ => d =? Hebrew_Letter | [] => false end = one (Z.eqb Hebrew_Letter) (map cls r)).
  { destruct r as [|y r]; [reflexivity|]. cbn [map]. cbn [andb negb] in H. apply negb_true_iff in H. unfold one. cbn [skip]. rewrite H. apply Z.eqb_sym. }
  rewrite A. reflexivity.
Qed.

Lemma ri_run_app (cls : Z -> Z) : forall ris rest, Forall (fun r => cls r = RI) ris -> one (Z.eqb RI) (map cls rest) = false ->
  ri_run (map cls (ris ++ rest)) = length ris.
Proof.
  induction 1 as [|x ris Hx _ IH]; intros Hr; cbn [app map ri_run length].
  - assert (G : forall l, one (Z.eqb RI) l = false -> ri_run l = 0%nat).
    { induction l as [|c l IH]; intros G; [reflexivity|]. cbn [ri_run]. unfold one in G. cbn [skip] in G. destruct (extend c).
      - apply IH. exact G. - rewrite Z.eqb_sym, G. reflexivity. }
    now apply G.
  - rewrite Hx. change (extend RI) with false. cbn [Z.eqb]. rewrite Z.eqb_refl. rewrite IH by auto. reflexivity.
Qed.
(* regional indicators pair up from the left *)
Lemma ri_pairs (cls : Z -> Z) adj l ris r k : Forall (fun x => cls x = RI) ris -> one (Z.eqb RI) (map cls (rev l)) = false ->
  (0 < k < length ris)%nat ->
  In (length l + k)%nat (bounds 0 (segmentation (wb_break adj cls) (l ++ ris ++ r))) <-> Nat.even k = true.
Proof.
  intros Hr Hl Hk. rewrite segmentation_bounds by (rewrite !app_length; lia).
  rewrite firstn_app, skipn_app. rewrite (firstn_all2 l), (skipn_all2 l) by lia.
  replace (length l + k - length l)%nat with k by lia. rewrite firstn_app, skipn_app.
  replace (k - length ris)%nat with 0%nat by lia. rewrite firstn_O, skipn_O, app_nil_r. cbn [app].
  rewrite rev_app_distr.
  assert (F1 : Forall (fun x => cls x = RI) (rev (firstn k ris))).
  { apply Forall_rev. apply Forall_forall. intros x Hx. rewrite Forall_forall in Hr. apply Hr. rewrite <- (firstn_skipn k ris). apply in_or_app. auto. }
  assert (R : ri_run (map cls (rev (firstn k ris) ++ rev l)) = k).
  { rewrite ri_run_app by auto. rewrite rev_length, firstn_length. lia. }
  destruct (skipn k ris) as [|x t] eqn:Es; [apply (f_equal (@length _)) in Es; rewrite skipn_length in Es; cbn [length] in Es; lia|].
  assert (Hx : cls x = RI). { rewrite Forall_forall in Hr. apply Hr. rewrite <- (firstn_skipn k ris), Es. apply in_or_app. simpl. auto. }
  cbn [app]. unfold wb_break. cbn [map]. rewrite Hx. unfold wb_boundary.
  destruct (rev (firstn k ris)) as [|a u] eqn:Er.
  - apply (f_equal (@length _)) in Er. rewrite rev_length, firstn_length in Er. cbn [length] in Er. lia.
  - pose proof (Forall_inv F1) as Ha. cbn beta in Ha. cbn [app map] in *. rewrite Ha in *. rewrite R.
    change (one AHLetter (RI :: map cls (u ++ rev l))) with false. change (one (Z.eqb Hebrew_Letter) (RI :: map cls (u ++ rev l))) with false.
    change (one (Z.eqb Numeric) (RI :: map cls (u ++ rev l))) with false. change (one (Z.eqb Katakana) (RI :: map cls (u ++ rev l))) with false.
    change (one (Z.eqb ExtendNumLet) (RI :: map cls (u ++ rev l))) with false.
    change (AHLetter RI) with false. change (newline RI) with false. change (RI =? CR) with false. change (RI =? ZWJ) with false. change (RI =? WSegSpace) with false.
    change (extend RI) with false. change (RI =? Hebrew_Letter) with false. change (RI =? Numeric) with false. change (RI =? Katakana) with false. change (RI =? ExtendNumLet) with false.
    change (RI =? RI) with true. rewrite ?andb_false_r. cbn [andb orb]. rewrite <- Nat.negb_odd.
    destruct (Nat.odd k); split; intros X; try reflexivity; try discriminate X; exact X.
Qed.
