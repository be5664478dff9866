(* Resume.v -- segmentations that can be resumed at their boundaries: graphemes, words, lines. *)
From Coq Require Import List ZArith Lia Bool Permutation.
From Verif Require Import Base BreakSpec BreakSpecProofs.
Import ListNotations.
Open Scope Z_scope.

(* ---- segmentations by any predicate ---- *)
Section Any.
Context {C : Type} (brk : list C -> list C -> bool).
(* A boundary makes everything behind it independent of what is before, and the other way round. *)
Definition forgets (t1 t2 : list C) : Prop :=
  (forall l r, l <> [] -> r <> [] -> l ++ r = t1 -> brk (rev l) (r ++ t2) = brk (rev l) r) /\
  (forall u r, u <> [] -> r <> [] -> u ++ r = t2 -> brk (rev u ++ rev t1) r = brk (rev u) r).

Lemma split_left t2 : t2 <> [] -> forall t1 left open, t1 <> [] -> brk (rev t1 ++ left) t2 = true ->
  (forall l r, l <> [] -> r <> [] -> l ++ r = t1 -> brk (rev l ++ left) (r ++ t2) = brk (rev l ++ left) r) ->
  split_text brk left open (t1 ++ t2) = split_text brk left open t1 ++ split_text brk (rev t1 ++ left) [] t2.
Proof.
  intros N2. induction t1 as [|x t IH]; intros left open N1 B H; [congruence|]. destruct t as [|y u].
  - destruct t2 as [|z v]; [congruence|]. change ([x] ++ z :: v) with (x :: z :: v). rewrite split_cons.
    change (rev [x] ++ left) with (x :: left) in *. rewrite B. reflexivity.
  - change ((x :: y :: u) ++ t2) with (x :: y :: (u ++ t2)). rewrite !split_cons.
    pose proof (H [x] (y :: u) ltac:(discriminate) ltac:(discriminate) eq_refl) as E. cbn [rev app] in E. change (y :: u ++ t2) with ((y :: u) ++ t2) in *. rewrite E.
    assert (R : rev (x :: y :: u) ++ left = rev (y :: u) ++ x :: left) by (cbn [rev]; rewrite <- !app_assoc; reflexivity). rewrite R in *.
    assert (H' : forall l r, l <> [] -> r <> [] -> l ++ r = y :: u -> brk (rev l ++ x :: left) (r ++ t2) = brk (rev l ++ x :: left) r).
    { intros l r Nl Nr El. specialize (H (x :: l) r ltac:(discriminate) Nr ltac:(cbn [app]; now rewrite El)). cbn [rev] in H. rewrite <- !app_assoc in H. exact H. }
    assert (Nu : y :: u <> []) by discriminate. destruct (brk (x :: left) (y :: u)).
    + rewrite (IH _ [] Nu B H'). reflexivity.
    + exact (IH _ _ Nu B H').
Qed.
Lemma split_context l1 l2 : forall rest open, (forall u r, u <> [] -> r <> [] -> u ++ r = rest -> brk (rev u ++ l1) r = brk (rev u ++ l2) r) ->
  split_text brk l1 open rest = split_text brk l2 open rest.
Proof.
  intros rest. revert l1 l2. induction rest as [|x t IH]; intros l1 l2 open H; [reflexivity|]. destruct t as [|y u]; [reflexivity|].
  rewrite !split_cons. pose proof (H [x] (y :: u) ltac:(discriminate) ltac:(discriminate) eq_refl) as E. cbn [rev app] in E. rewrite E.
  assert (G : forall v r, v <> [] -> r <> [] -> v ++ r = y :: u -> brk (rev v ++ x :: l1) r = brk (rev v ++ x :: l2) r).
  { intros v r Nv Nr Ev. specialize (H (x :: v) r ltac:(discriminate) Nr ltac:(cbn [app]; now rewrite Ev)). cbn [rev] in H. rewrite <- !app_assoc in H. exact H. }
  destruct (brk (x :: l2) (y :: u)).
  - f_equal. now apply IH.
  - now apply IH.
Qed.
Lemma segmentation_app t1 t2 : t1 <> [] -> t2 <> [] -> brk (rev t1) t2 = true -> forgets t1 t2 ->
  segmentation brk (t1 ++ t2) = segmentation brk t1 ++ segmentation brk t2.
Proof.
  intros N1 N2 B (F1 & F2). unfold segmentation. rewrite (split_left t2 N2 t1 [] [] N1).
  - f_equal. apply split_context. intros u r Nu Nr E. rewrite !app_nil_r. now apply F2.
  - now rewrite app_nil_r.
  - intros l r Nl Nr E. rewrite app_nil_r. now apply F1.
Qed.

Lemma bounds_app : forall (a b : list (list C)) k, bounds k (a ++ b) = bounds k a ++ bounds (k + length (List.concat a)) b.
Proof.
  induction a as [|w a IH]; intros b k; cbn [app bounds List.concat length]; [now rewrite Nat.add_0_r|].
  rewrite IH, app_length, Nat.add_assoc. reflexivity.
Qed.
Lemma bounds_end : forall (a : list (list C)) k, a <> [] -> In (k + length (List.concat a))%nat (bounds k a).
Proof.
  induction a as [|w a IH]; intros k N; [congruence|]. cbn [bounds List.concat]. rewrite app_length. destruct a as [|v a].
  - left. cbn. lia.
  - right. rewrite Nat.add_assoc. apply IH. discriminate.
Qed.
Lemma concat_nil (a : list (list C)) : Forall (fun w => w <> []) a -> List.concat a = [] -> a = [].
Proof. intros F E. destruct F as [|w a N F]; [reflexivity|]. cbn [List.concat] in E. apply app_eq_nil in E. tauto. Qed.
(* the delivered segments: before and behind any of them there is a boundary *)
Lemma segmentation_at text a b : segmentation brk text = a ++ b -> a <> [] -> b <> [] ->
  text = List.concat a ++ List.concat b /\ List.concat a <> [] /\ List.concat b <> [] /\ brk (rev (List.concat a)) (List.concat b) = true.
Proof.
  intros E Na Nb. pose proof (segmentation_concat brk text) as Ct. rewrite E, concat_app in Ct.
  pose proof (split_nonempty brk text [] []) as Ne. change (split_text brk [] [] text) with (segmentation brk text) in Ne. rewrite E in Ne. apply Forall_app in Ne. destruct Ne as [Ne1 Ne2].
  assert (A : List.concat a <> []) by (intros X; apply Na; now apply concat_nil).
  assert (B : List.concat b <> []) by (intros X; apply Nb; now apply concat_nil).
  split; [now symmetry|]. split; [auto|]. split; [auto|].
  assert (L : (0 < length (List.concat a) < length text)%nat).
  { rewrite <- Ct, app_length. destruct (List.concat a); [congruence|]. destruct (List.concat b); [congruence|]. cbn [length]. lia. }
  pose proof (segmentation_bounds brk text _ L) as [X _]. rewrite E, <- Ct in X.
  rewrite firstn_app, skipn_app, Nat.sub_diag, firstn_all, skipn_all in X. cbn [firstn skipn app] in X. rewrite app_nil_r in X. apply X.
  rewrite bounds_app. apply in_or_app. left. apply (bounds_end a 0 Na).
Qed.
(* Hence the parts of a segmentation are the segmentations of the parts. *)
Lemma segmentation_parts text a b : segmentation brk text = a ++ b ->
  (forall t1 t2, text = t1 ++ t2 -> t1 <> [] -> t2 <> [] -> brk (rev t1) t2 = true -> forgets t1 t2) ->
  segmentation brk (List.concat a) = a /\ segmentation brk (List.concat b) = b.
Proof.
  intros E H. destruct a as [|w a']; [|destruct b as [|v b']].
  - cbn [app] in E. split; [reflexivity|]. rewrite <- E, segmentation_concat. reflexivity.
  - rewrite app_nil_r in E. split; [|reflexivity]. rewrite <- E, segmentation_concat. reflexivity.
  - set (a := w :: a') in *. set (b := v :: b') in *. assert (Na : a <> []) by discriminate. assert (Nb : b <> []) by discriminate. clearbody a b. clear w a' v b'.
    destruct (segmentation_at text a b E Na Nb) as (Et & A & B & Bk). specialize (H _ _ Et A B Bk).
    pose proof (segmentation_app _ _ A B Bk H) as S. rewrite <- Et, E in S.
    pose proof (segmentation_concat brk (List.concat a)) as C1.
    assert (Le : forall x y u v : list (list C), x ++ y = u ++ v -> List.concat x = List.concat u -> Forall (fun w => w <> []) x -> Forall (fun w => w <> []) u -> x = u /\ y = v).
    { clear. induction x as [|p x IH]; intros y u v E Ec Fx Fu.
      - destruct u as [|q u]; [auto|]. inversion Fu; subst. cbn [List.concat] in Ec. symmetry in Ec. apply app_eq_nil in Ec. tauto.
      - destruct u as [|q u].
        + inversion Fx; subst. cbn [List.concat] in Ec. apply app_eq_nil in Ec. tauto.
        + cbn [app] in E. injection E as -> E. cbn [List.concat] in Ec. apply app_inv_head in Ec. inversion Fx; subst. inversion Fu; subst.
          destruct (IH y u v E Ec H2 H4) as [-> ->]. auto. }
    pose proof (split_nonempty brk text [] []) as Ne. change (split_text brk [] [] text) with (segmentation brk text) in Ne. rewrite E in Ne. apply Forall_app in Ne.
    destruct (Le a b _ _ S (eq_sym C1) (proj1 Ne) (split_nonempty brk _ [] [])) as [X Y]. split; congruence.
Qed.
End Any.
