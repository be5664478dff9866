(* BreakSpecProofs.v -- basic facts about segmentations. *)
From Coq Require Import List ZArith Lia Bool.
From Verif Require Import BreakSpec.
Import ListNotations.

Section Split.
Context {C : Type}.
Implicit Types (brk : list C -> list C -> bool) (l r t text : list C).

Lemma split_cons brk left open x y u : split_text brk left open (x :: y :: u) =
  if brk (x :: left) (y :: u) then (open ++ [x]) :: split_text brk (x :: left) [] (y :: u)
  else split_text brk (x :: left) (open ++ [x]) (y :: u).
Proof. reflexivity. Qed.

Lemma split_concat brk : forall rest left open, rest <> [] -> concat (split_text brk left open rest) = open ++ rest.
Proof.
  induction rest as [|r t IH]; intros left open H; [congruence|]. cbn [split_text]. destruct t as [|y u].
  - simpl. now rewrite app_nil_r.
  - destruct (brk (r :: left) (y :: u)).
    + cbn [concat]. rewrite IH by discriminate. now rewrite <- app_assoc.
    + rewrite IH by discriminate. now rewrite <- app_assoc.
Qed.
Lemma segmentation_concat brk text : concat (segmentation brk text) = text.
Proof. destruct text; [reflexivity|]. unfold segmentation. now rewrite split_concat. Qed.

Lemma split_nonempty brk : forall rest left open, Forall (fun w => w <> []) (split_text brk left open rest).
Proof.
  induction rest as [|r t IH]; intros left open; cbn [split_text]; [constructor|].
  destruct t as [|y u]; [constructor; [destruct open; discriminate|constructor]|].
  destruct (brk (r :: left) (y :: u)); auto. constructor; auto. destruct open; discriminate.
Qed.

Lemma split_ext brk1 brk2 : forall rest left open,
  (forall l r, l <> [] -> r <> [] -> l ++ r = rest -> brk1 (rev l ++ left) r = brk2 (rev l ++ left) r) ->
  split_text brk1 left open rest = split_text brk2 left open rest.
Proof.
  induction rest as [|x t IH]; intros left open H; [reflexivity|]. cbn [split_text]. destruct t as [|y u]; [reflexivity|].
  pose proof (H [x] (y :: u) ltac:(discriminate) ltac:(discriminate) eq_refl) as H0. cbn [rev app] in H0. rewrite H0.
  assert (IH' : forall o, split_text brk1 (x :: left) o (y :: u) = split_text brk2 (x :: left) o (y :: u)).
  { intros o. apply IH. intros l r Hl Hr E. specialize (H (x :: l) r ltac:(discriminate) Hr ltac:(simpl; now rewrite E)).
    cbn [rev] in H. rewrite <- app_assoc in H. exact H. }
  destruct (brk2 (x :: left) (y :: u)); [f_equal|]; apply IH'.
Qed.
Lemma segmentation_ext brk1 brk2 text :
  (forall l r, l <> [] -> r <> [] -> l ++ r = text -> brk1 (rev l) r = brk2 (rev l) r) ->
  segmentation brk1 text = segmentation brk2 text.
Proof. intros H. apply split_ext. intros l r Hl Hr E. rewrite app_nil_r. auto. Qed.

Lemma bounds_gt : forall (segs : list (list C)) k x, Forall (fun w => w <> []) segs -> In x (bounds k segs) -> (k < x)%nat.
Proof.
  induction segs as [|w segs IH]; intros k x F H; [contradiction|]. inversion F; subst. cbn [bounds] in H.
  assert (0 < length w)%nat by (destruct w; [congruence|simpl; lia]).
  destruct H as [<-|H]; [lia|]. apply IH in H; auto. lia.
Qed.

Lemma split_bounds brk : forall rest left open k i, (0 < i < length rest)%nat ->
  In (k + length open + i)%nat (bounds k (split_text brk left open rest)) <->
  brk (rev (firstn i rest) ++ left) (skipn i rest) = true.
Proof.
  induction rest as [|x t IH]; intros left open k i Hi; [simpl in Hi; lia|].
  destruct t as [|y u]; [simpl in Hi; lia|]. rewrite split_cons.
  destruct i as [|i]; [lia|]. cbn [firstn skipn rev]. rewrite <- app_assoc. cbn [app].
  destruct (Nat.eq_dec i 0) as [->|Ni].
  - cbn [firstn rev app skipn]. destruct (brk (x :: left) (y :: u)) eqn:E.
    + split; auto. intros _. cbn [bounds]. left. rewrite app_length. simpl. lia.
    + split; [|discriminate]. intros H. exfalso.
      assert (G : forall rest left open k x, rest <> [] -> In x (bounds k (split_text brk left open rest)) -> (k + length open < x)%nat).
      { clear. induction rest as [|r t IH]; intros left open k x Hr H; [congruence|]. destruct t as [|y u].
        - cbn [split_text bounds In] in H. rewrite app_length in H. simpl in H. destruct H as [<-|[]]. lia.
        - rewrite split_cons in H. destruct (brk (r :: left) (y :: u)).
          + cbn [bounds] in H. rewrite app_length in H. simpl length in H. destruct H as [<-|H]; [lia|].
            apply IH in H; [|discriminate]. simpl in H. lia.
          + apply IH in H; [|discriminate]. rewrite app_length in H. simpl in H. lia. }
      apply G in H; [|discriminate]. rewrite app_length in H. simpl in H. lia.
  - destruct (brk (x :: left) (y :: u)) eqn:E.
    + cbn [bounds]. rewrite app_length. cbn [length].
      specialize (IH (x :: left) [] (k + (length open + 1))%nat i ltac:(simpl in *; lia)). cbn [length] in IH.
      rewrite <- IH. replace (k + (length open + 1) + 0 + i)%nat with (k + length open + S i)%nat by lia.
      split; [intros [H|H]; [lia|exact H]|intros H; right; exact H].
    + specialize (IH (x :: left) (open ++ [x]) k i ltac:(simpl in *; lia)). rewrite app_length in IH. cbn [length] in IH.
      rewrite <- IH. replace (k + (length open + 1) + i)%nat with (k + length open + S i)%nat by lia. reflexivity.
Qed.
(* a position inside the text ends a segment iff the predicate says so *)
Lemma segmentation_bounds brk text i : (0 < i < length text)%nat ->
  In i (bounds 0 (segmentation brk text)) <-> brk (rev (firstn i text)) (skipn i text) = true.
Proof. intros H. pose proof (split_bounds brk text [] [] 0 i H) as X. rewrite app_nil_r in X. exact X. Qed.
End Split.
