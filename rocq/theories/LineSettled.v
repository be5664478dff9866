(* LineSettled.v -- the verdict of the line breaker on a position is found from any later row, not
   only from the row that settles it, unless the next rune is a CR. *)
From Coq Require Import List ZArith Lia Bool.
From Verif Require Import Base PrioQ PrioQProofs Recognizer Segmenter SegSpec SegProofs SegInv SegNext SegCut SegFacade BreakFacade Rows SegEager SegPair Line LineSum LineVerdict.
Import ListNotations.
Open Scope Z_scope.

Notation late := (tailsum lnext lpens).
Lemma fsum_late f rc j : In f feats -> In rc rclasses -> (2 <= j)%nat -> (fa f =? CR) = false \/ (3 <= j)%nat -> fsum f rc j = 0.
Proof.
  intros Hf Hr Hj H. set (P := fun f rc => ((fa f =? CR) || (fsum f rc 2 =? 0)) &&
    (max_len (map snd (map (lev (fa f) (fsub f rc) (fcl f rc)) (fixed f ++ news f (fcl f rc)))) <=? 3)%nat).
  assert (X : P f rc = true) by finite P. unfold P in X. rewrite andb_true_iff in X. destruct X as (A & D). apply Nat.leb_le in D.
  destruct (Nat.eq_dec j 2) as [->|N].
  - destruct H as [H|H]; [|lia]. rewrite H in A. cbn in A. now apply Z.eqb_eq.
  - unfold fsum. rewrite max_len_out by lia. reflexivity.
Qed.
Lemma fa_CR f rc : In f feats -> In rc rclasses -> rc <> CR -> (fa (fnext f rc) =? CR) = false.
Proof.
  intros Hf Hr N. set (P := fun f rc => (rc =? CR) || negb (fa (fnext f rc) =? CR)). assert (X : P f rc = true) by finite P. unfold P in X.
  apply Z.eqb_neq in N. rewrite N in X. now apply negb_true_iff in X.
Qed.
Lemma nsum_short ph ms c j : (2 <= j)%nat -> Forall (fun m => m < Z.of_nat j) ms -> nsum ph ms c j = 0.
Proof.
  intros Hj H. unfold nsum. destruct (moves ph c); [reflexivity|]. induction H as [|m ms Hm Hs IH]; [reflexivity|]. unfold sum_at in *. cbn [map fold_right]. rewrite IH.
  unfold numpens. destruct (one_of ph [4; 5]); [|destruct j; reflexivity]. rewrite ps_nth. destruct j as [|[|j]]; try lia.
  destruct (Nat.ltb_spec j (Z.to_nat (m - 1))); lia.
Qed.
(* no open number reaches the position: nothing is added any more *)
Lemma late_none : forall cs s d, sok s -> Forall (fun c => In c rclasses) cs -> (2 <= d)%nat -> Forall (fun m => m < Z.of_nat d) (snd s) ->
  (fa (fst s) =? CR) = false \/ (3 <= d)%nat -> late s cs d = 0.
Proof.
  induction cs as [|c cs IH]; intros s d Hs Hc Hd Hm Hf; [reflexivity|]. inversion Hc; subst. cbn [tailsum].
  rewrite row_2, fsum_late, nsum_short by (auto; apply Hs). rewrite IH; auto; try lia; [now apply lnext_ok|].
  unfold lnext, mnext. cbn [snd]. apply Forall_app. split.
  - destruct (moves _ _); [|constructor]. apply Forall_forall. intros m Im. apply in_map_iff in Im. destruct Im as (x & <- & Ix).
    rewrite Forall_forall in Hm. specialize (Hm x Ix). lia.
  - destruct (starts _); constructor; [lia|constructor].
Qed.

Section Text.
Context (cs : list Z) (Hcs : Forall (fun c => In c rclasses) cs).
Notation an := (rows lnext llam lpens st0 (cs ++ [eot])).
Notation all := (cs ++ [eot]).
Notation sat := (LineVerdict.sat cs).
Lemma skipn_nth (l : list Z) : forall j, (j < length l)%nat -> skipn j l = nth j l 0 :: skipn (S j) l.
Proof. induction l as [|x l IH]; intros j H; [cbn in H; lia|]. destruct j; [reflexivity|]. apply IH. cbn in H. lia. Qed.
(* a position with a break *)
Lemma late_break i k : (S (S i) <= k)%nat -> (k <= length all)%nat -> (k = S (S i) \/ nth (S i) all 0 <> CR) -> LV cs i = true ->
  late (sat (S (S i))) (skipn (S (S i)) (firstn k all)) 2 = 0.
Proof.
  intros Hi Hk Hc V. unfold LV in V. apply verdict_iff in V. destruct V as [_ Vi].
  pose proof (sat_ok cs Hcs (S i)) as Ok1. pose proof (sat_ok cs Hcs (S (S i))) as Ok2. pose proof (nth_ok cs Hcs (S i) ltac:(lia)) as N1.
  destruct (Nat.eq_dec k (S (S i))) as [->|Nk].
  { rewrite skipn_all2 by (rewrite firstn_length; lia). reflexivity. }
  destruct Hc as [|Hc]; [lia|].
  destruct (moves (fph (fst (sat (S i)))) (fcl (fst (sat (S i))) (nth (S i) all 0))) eqn:M.
  - specialize (Vi eq_refl). unfold covered in Vi. destruct ((fph (fst (sat (S i))) =? 2) && one_of (fcl (fst (sat (S i))) (nth (S i) all 0)) [OP; HY]) eqn:E2; [|discriminate].
    apply Z.eqb_neq in Vi.
    assert (P3 : fph (fst (sat (S (S i)))) = 3).
    { rewrite (sat_S cs (S i)) by lia. cbn [lnext fst]. set (f := fst (sat (S i))) in *. set (b := nth (S i) all 0) in *.
      pose proof (proj1 Ok1) as Hf. change (In f feats) in Hf. pose proof (fin_7 f b ltac:(assumption) ltac:(assumption)) as X. apply orb_prop in X; destruct X as [X|X]; [rewrite E2 in X; discriminate X|]. now apply Z.eqb_eq. }
    pose proof (nth_ok cs Hcs (S (S i)) ltac:(lia)) as N2.
    assert (M2 : moves (fph (fst (sat (S (S i))))) (fcl (fst (sat (S (S i)))) (nth (S (S i)) all 0)) = false).
    { set (f := fst (sat (S (S i)))) in *. set (b := nth (S (S i)) all 0) in *.
      pose proof (proj1 Ok2) as Hf. change (In f feats) in Hf. pose proof (fin_8 f b ltac:(assumption) ltac:(assumption)) as X. apply orb_prop in X; destruct X as [X|X]; [|apply negb_true_iff in X; exact X].
      apply orb_prop in X; destruct X as [X|X]; [rewrite P3 in X; discriminate X|apply Z.eqb_eq in X; contradiction]. }
    rewrite skipn_nth by (rewrite firstn_length; lia). rewrite nth_firstn by lia. cbn [tailsum]. rewrite <- sat_S by lia.
    rewrite row_2 by (auto; lia). destruct (fsum_2 (fst (sat (S (S i)))) (nth (S (S i)) all 0) 2 (proj1 Ok2) N2 ltac:(lia)) as [_ F2].
    rewrite (F2 P3). assert (Nz : nsum (fph (fst (sat (S (S i))))) (snd (sat (S (S i)))) (fcl (fst (sat (S (S i)))) (nth (S (S i)) all 0)) 2 = 0).
    { unfold nsum. rewrite M2, P3. induction (snd (sat (S (S i)))) as [|x l IH]; [reflexivity|]. unfold sum_at in *. cbn [map fold_right]. rewrite IH. reflexivity. }
    rewrite Nz. rewrite late_none; [reflexivity|apply sat_ok; auto|apply sub_ok; auto|lia| |right; lia].
    rewrite sat_S by lia. unfold lnext, mnext. cbn [snd]. change (substitute (nth (S (S i)) all 0) (fa (fst (sat (S (S i)))))) with (fcl (fst (sat (S (S i)))) (nth (S (S i)) all 0)).
    rewrite M2. cbn [app]. destruct (starts _); constructor; [lia|constructor].
  - apply late_none; auto; try lia; [apply sub_ok; auto| |left].
    + rewrite sat_S by lia. unfold lnext, mnext. cbn [snd]. change (substitute (nth (S i) all 0) (fa (fst (sat (S i))))) with (fcl (fst (sat (S i))) (nth (S i) all 0)).
      rewrite M. cbn [app]. destruct (starts _); constructor; [lia|constructor].
    + rewrite sat_S by lia. cbn [lnext fst]. apply fa_CR; auto. apply Ok1.
Qed.

Definition hot_line (i : nat) : bool := nth (S i) all 0 =? CR.
Lemma lam_CR i : (S i < length all)%nat -> nth (S i) all 0 = CR -> llam (sat (S (S i))) = 1.
Proof.
  intros Hi E. rewrite sat_S, E by lia. unfold llam, lnext. cbn [snd]. apply llam_1. change (substitute CR (fa (fst (sat (S i))))) with CR.
  unfold moves. change (one_of CR [OP; HY; NU]) with false. change (CR =? NU) with false. change (one_of CR [NU; SY; IS; CL; CP]) with false. now rewrite !andb_false_r.
Qed.
Lemma decides_line text : length text = length cs -> decides text an (LV cs) hot_line.
Proof.
  intros Lt. assert (La : length all = S (length cs)) by (rewrite app_length; cbn; lia). pose proof (len_an cs) as Ln.
  assert (Hlen : map (fun _ : Z => 0) text = map (fun _ => 0) cs).
  { clear - Lt. revert cs Lt. induction text as [|x t IH]; intros [|c cs] L; try discriminate; [reflexivity|]. cbn. f_equal. apply IH. cbn in L. lia. }
  destruct (eager_line cs Hcs text Hlen) as [E1 _]. destruct (rows_width lnext llam lpens all st0) as (w & Hw).
  split.
  - rewrite Ln. lia.
  - intros k i Hk _ Hs T. exact (E1 k i Hk Hs T).
  - intros k i Hi Hk Hs Hc V. unfold test_after.
    rewrite (test_pos text _ w), (total_at cs Hcs w) by (try (rewrite ?La; lia); auto;
      apply Forall_forall; intros a Ia; rewrite Forall_forall in Hw; apply Hw; rewrite <- (firstn_skipn k an); apply in_or_app; auto).
    rewrite late_break; auto; try lia.
    + rewrite Z.add_0_r, total2_ok by (try apply sat_ok; auto; apply nth_ok; auto; lia). unfold LV in V. apply verdict_iff in V. apply V.
    + destruct Hc as [Hc|Hc]; [auto|right]. unfold hot_line in Hc. now apply Z.eqb_neq in Hc.
  - intros i Hi Hc. unfold hot_line in Hc. apply Z.eqb_eq in Hc. cbn [lam_after]. rewrite (lam_an cs) by lia. rewrite lam_CR by (auto; lia). lia.
  - pose proof (lam_last_an cs) as H. rewrite Ln. cbn [lam_after].
    assert (Y : last an (0, []) = nth (length cs) an (0, [])).
    { revert Ln. generalize an as l. generalize (length cs) as n. clear. intros n l. revert n. induction l as [|x l IH]; intros n E; [discriminate|].
      destruct l as [|y l]; [cbn in E; inversion E; reflexivity|]. destruct n as [|n]; [discriminate|].
      change (last (x :: y :: l) (0, [])) with (last (y :: l) (0, [])). rewrite (IH n); [reflexivity|]. cbn in *. lia. }
    rewrite <- Y. lia.
Qed.
End Text.
