(* LineVerdict.v -- the penalties of the line breaker, and the verdict they add up to at each position. *)
From Coq Require Import List ZArith Lia Bool Permutation.
From Verif Require Import Base PrioQ PrioQProofs Recognizer Bag Segmenter SegSpec SegProofs SegInv SegNext SegCut BreakFacade SegWeak Rows SegEager Line LineSum.
Import ListNotations.
Open Scope Z_scope.

(* ---- sums of penalties ---- *)
Definition fsum (f : fstate) (rc : Z) (j : nat) : Z :=
  sum_at (map snd (map (lev (fa f) (fsub f rc) (fcl f rc)) (fixed f ++ news f (fcl f rc)))) j.
Definition nsum (ph : Z) (ms : list Z) (c : Z) (j : nat) : Z :=
  if moves ph c then 0 else sum_at (map (fun m => numpens ph m c) ms) j.
Lemma sum_at_app a b j : sum_at (a ++ b) j = sum_at a j + sum_at b j.
Proof. unfold sum_at. rewrite map_app, fold_right_app. induction (map _ a); cbn; lia. Qed.
Lemma sum_nums last sub c ms ph j : In c eclasses -> In ph phases -> Forall (fun m => 1 <= m) ms ->
  sum_at (map snd (map (lev last sub c) (nums ph ms))) j = nsum ph ms c j.
Proof.
  intros Hc Hp Hm. unfold nsum. induction Hm as [|m ms Hm Hms IH]; [destruct (moves ph c); reflexivity|].
  cbn [nums map]. change (map (fun m0 => rc1 m0 (num_label ph)) ms) with (nums ph ms). rewrite lev_num by auto.
  unfold sum_at in *. cbn [map fold_right]. rewrite IH. destruct (moves ph c); cbn [snd]; [destruct j|]; reflexivity.
Qed.
Lemma sum_all s rc j : sok s -> In rc rclasses ->
  nth j (sum_pens (all_pens s rc)) 0 = fsum (fst s) rc j + nsum (fph (fst s)) (snd s) (fcl (fst s) rc) j.
Proof.
  intros (Hf & Hm & H0 & _) Hr. destruct (fold_pens (all_pens s rc) []) as [F _]. unfold sum_pens. rewrite F.
  replace (nth j [] 0) with 0 by (destruct j; reflexivity). unfold all_pens, bag, fsum. rewrite !map_app, !sum_at_app.
  assert (X : sum_at (map snd (map (lev (fa (fst s)) (fsub (fst s) rc) (fcl (fst s) rc)) (nums (fph (fst s)) (snd s)))) j
    = nsum (fph (fst s)) (snd s) (fcl (fst s) rc) j).
  { destruct (Z.eq_dec (fph (fst s)) 0) as [E|N].
    - apply H0 in E. rewrite E. unfold nsum. destruct (moves _ _); reflexivity.
    - apply sum_nums; auto using fcl_in, phases_in. }
  rewrite X. lia.
Qed.
Lemma p25 : p 25 = 4.
Proof. reflexivity. Qed.
Lemma nth_repeat' (a : Z) n j : nth j (repeat a n) 0 = if (j <? n)%nat then a else 0.
Proof. revert j. induction n as [|n IH]; intros [|j]; try reflexivity. cbn [repeat nth]. rewrite IH. reflexivity. Qed.
Lemma ps_nth x m j : nth j (ps 25 x m) 0 = match j with O => 0 | S O => x | S (S i) => if (i <? Z.to_nat (m - 1))%nat then 4 else 0 end.
Proof. unfold ps. destruct j as [|[|j]]; try reflexivity. cbn [nth]. rewrite p25. apply nth_repeat'. Qed.
Lemma nsum_0 ph ms c : nsum ph ms c 0 = 0.
Proof.
  unfold nsum. destruct (moves ph c); [reflexivity|]. induction ms as [|m ms IH]; [reflexivity|]. unfold sum_at in *. cbn [map fold_right]. rewrite IH.
  unfold numpens. destruct (one_of ph [4; 5]); reflexivity.
Qed.
Lemma nsum_1 ph ms c : moves ph c = false -> nsum ph ms c 1 = (if one_of ph [4; 5] && one_of c [PR; PO] then 4 else 0) * zlen ms.
Proof.
  intros E. unfold nsum. rewrite E. unfold zlen. induction ms as [|m ms IH]; [cbn; lia|]. unfold sum_at in *. cbn [map fold_right]. rewrite IH.
  unfold numpens. cbn [length]. destruct (one_of ph [4; 5]); [|cbn [andb nth]; lia]. rewrite ps_nth, p25. cbn [andb]. destruct (one_of c [PR; PO]); lia.
Qed.
Lemma numpens_ge ph m c j : (2 <= j)%nat -> 0 <= nth j (numpens ph m c) 0.
Proof.
  intros Hj. unfold numpens. destruct (one_of ph [4; 5]); [|destruct j; cbn; lia]. rewrite ps_nth. destruct j as [|[|j]]; try lia.
  destruct (_ <? _)%nat; lia.
Qed.
Lemma nsum_ge ph ms c j : (2 <= j)%nat -> 0 <= nsum ph ms c j.
Proof.
  intros Hj. unfold nsum. destruct (moves ph c); [lia|]. induction ms as [|m ms IH]; [unfold sum_at; cbn; lia|]. unfold sum_at in *. cbn [map fold_right].
  pose proof (numpens_ge ph m c j Hj). lia.
Qed.
Lemma nsum_in ph ms c j : (2 <= j)%nat -> moves ph c = false -> one_of ph [4; 5] = true -> (exists m, In m ms /\ Z.of_nat j <= m) -> 4 <= nsum ph ms c j.
Proof.
  intros Hj E E2 (m & I & L). pose proof (nsum_ge ph) as G. unfold nsum in *. rewrite E in *. induction ms as [|x ms IH]; [contradiction|].
  specialize (G ms c j Hj). rewrite E in G. unfold sum_at in *. cbn [map fold_right]. pose proof (numpens_ge ph x c j Hj). destruct I as [->|I].
  - unfold numpens at 1. rewrite E2, ps_nth. destruct j as [|[|j]]; try lia. destruct (Nat.ltb_spec j (Z.to_nat (m - 1))); lia.
  - specialize (IH I). lia.
Qed.

Lemma nth_map_lift l j : nth j (map lift1 l) 0 = lift1 (nth j l 0).
Proof. change 0 with (lift1 0) at 1. apply map_nth. Qed.
Lemma lift1_ge x : 0 <= x -> 0 <= lift1 x.
Proof. unfold lift1, DefaultPenalty, noBreak. destruct (Z.gtb_spec x 1); lia. Qed.
Lemma lift1_big x : 2 <= x -> 10000 <= lift1 x.
Proof. unfold lift1, DefaultPenalty, noBreak. destruct (Z.gtb_spec x 1); lia. Qed.
Lemma patch_0 i l : nth 0 (patch i l) 0 = nth 0 l 0.
Proof. unfold patch, setPenalty1. destruct l as [|a [|b l]]; try reflexivity. destruct (b =? 0); reflexivity. Qed.
Lemma patch_1 i l : nth 1 (patch i l) 0 = if nth 1 l 0 =? 0 then (if i then noBreak else DefaultPenalty) else nth 1 l 0.
Proof. unfold patch, setPenalty1. destruct l as [|a [|b l]]; try reflexivity. cbn [nth]. destruct (b =? 0) eqn:E; cbn [nth]; try reflexivity. Qed.
Lemma patch_2 i l j : (2 <= j)%nat -> nth j (patch i l) 0 = nth j l 0.
Proof.
  intros Hj. destruct j as [|[|j]]; try lia. unfold patch, setPenalty1. destruct l as [|a [|b l]]; cbn [nth]; try reflexivity.
  - destruct j; reflexivity.
  - destruct j; reflexivity.
  - destruct (b =? 0); reflexivity.
Qed.

(* ---- the row of a rune ---- *)
(* what the last rune did to the position behind it *)
Definition after (f : fstate) : Z :=
  lift1 ((if one_of (fa f) [BK; NL; LF] then Must else 0) + (if fcrlf f then Must else 0)
    + (if fa f =? WJ then p 11 else 0) + (if fa f =? GL then p 12 else 0) + (if fa f =? SP then - p 18 else 0) + (if fa f =? QU then p 19 else 0)
    + (if fa f =? CB then - p 20 else 0) + (if fa f =? BB then p 21 else 0) + (if fhl f then p 21 else 0)).
Definition before (f : fstate) (rc n : Z) : Z :=
  let x := fsum f rc 1 + n in lift1 (if x =? 0 then (if fsub f rc && (fa f =? fcl f rc) then noBreak else DefaultPenalty) else x).
Lemma row_0 s rc : sok s -> In rc rclasses -> nth 0 (lpens s rc) 0 = after (fst (lnext s rc)).
Proof.
  intros Hs Hr. unfold lpens. rewrite nth_map_lift, patch_0, sum_all, nsum_0, Z.add_0_r by auto. destruct Hs as (Hf & _). cbn [lnext fst].
  set (f := fst s) in *. apply Z.eqb_eq. set (P := fun f rc => lift1 (fsum f rc 0) =? after (fnext f rc)). change (P f rc = true). finite P.
Qed.
Lemma row_1 s rc : sok s -> In rc rclasses -> nth 1 (lpens s rc) 0 = before (fst s) rc (nsum (fph (fst s)) (snd s) (fcl (fst s) rc) 1).
Proof. intros Hs Hr. unfold lpens, before. rewrite nth_map_lift, patch_1, sum_all by auto. reflexivity. Qed.
Lemma row_2 s rc j : sok s -> In rc rclasses -> (2 <= j)%nat ->
  nth j (lpens s rc) 0 = lift1 (fsum (fst s) rc j + nsum (fph (fst s)) (snd s) (fcl (fst s) rc) j).
Proof. intros Hs Hr Hj. unfold lpens. rewrite nth_map_lift, patch_2, sum_all by auto. reflexivity. Qed.
Lemma max_len_out pp j : (max_len pp <= j)%nat -> sum_at pp j = 0.
Proof.
  unfold max_len, sum_at. induction pp as [|x pp IH]; intros H; [reflexivity|]. cbn [map fold_right] in *. rewrite IH by lia.
  rewrite nth_overflow by lia. reflexivity.
Qed.
Lemma fsum_2 f rc j : In f feats -> In rc rclasses -> (2 <= j)%nat -> 0 <= fsum f rc j /\ (fph f = 3 -> fsum f rc j = 0).
Proof.
  intros Hf Hr Hj. set (P := fun f rc => (0 <=? fsum f rc 2) && (negb (fph f =? 3) || (fsum f rc 2 =? 0)) &&
    (max_len (map snd (map (lev (fa f) (fsub f rc) (fcl f rc)) (fixed f ++ news f (fcl f rc)))) <=? 3)%nat).
  assert (X : P f rc = true) by finite P. unfold P in X. rewrite !andb_true_iff in X. destruct X as ((A & C) & D).
  apply Z.leb_le in A. apply Nat.leb_le in D. destruct (Nat.eq_dec j 2) as [->|N].
  - split; auto. intros E. rewrite E in C. cbn in C. now apply Z.eqb_eq.
  - unfold fsum. rewrite max_len_out by lia. split; [lia|auto].
Qed.

(* ---- the verdict ---- *)
Definition base (f : fstate) (rc : Z) : bool :=
  ok_pen (after f + before f rc (if one_of (fph f) [4; 5] && one_of (fcl f rc) [PR; PO] then 4 else 0)).
Definition verdict (f : fstate) (b d : Z) : bool :=
  base f b && negb (moves (fph f) (fcl f b) && (if (fph f =? 2) && one_of (fcl f b) [OP; HY] then d =? NU else true)).

Lemma fin_1 : forall f rc, In f feats -> In rc rclasses -> (negb (one_of (fph f) [4; 5] && one_of (fcl f rc) [PR; PO]) || ((after f =? 0) && (0 <=? fsum f rc 1))) = true.
Proof. apply (feats_all (fun f rc => negb (one_of (fph f) [4; 5] && one_of (fcl f rc) [PR; PO]) || ((after f =? 0) && (0 <=? fsum f rc 1)))). vm_compute. reflexivity. Qed.

Lemma fin_2 : forall f rc, In f feats -> In rc rclasses -> (negb (moves (fph f) (fcl f rc)) || (0 <=? after f + before f rc 0)) = true.
Proof. apply (feats_all (fun f rc => negb (moves (fph f) (fcl f rc)) || (0 <=? after f + before f rc 0))). vm_compute. reflexivity. Qed.

Lemma fin_3 : forall f rc, In f feats -> In rc rclasses -> (negb (moves (fph f) (fcl f rc)) || negb (after f + before f rc 0 =? 0)) = true.
Proof. apply (feats_all (fun f rc => negb (moves (fph f) (fcl f rc)) || negb (after f + before f rc 0 =? 0))). vm_compute. reflexivity. Qed.

Lemma fin_4 : forall f rc, In f feats -> In rc rclasses -> (negb (after f + before f rc 0 =? 0)) = true.
Proof. apply (feats_all (fun f rc => negb (after f + before f rc 0 =? 0))). vm_compute. reflexivity. Qed.

Lemma fin_5 : forall f rc, In f feats -> In rc rclasses -> (negb (moves (fph f) (fcl f rc) && one_of (fph f) [3; 4; 5]) || one_of (fph (fnext f rc)) [4; 5]) = true.
Proof. apply (feats_all (fun f rc => negb (moves (fph f) (fcl f rc) && one_of (fph f) [3; 4; 5]) || one_of (fph (fnext f rc)) [4; 5])). vm_compute. reflexivity. Qed.

Lemma fin_6 : forall f rc, In f feats -> In rc rclasses -> (negb (moves (fph f) (fcl f rc)) || (if (fph f =? 2) && one_of (fcl f rc) [OP; HY] then fph (fnext f rc) =? 3 else one_of (fph (fnext f rc)) [4; 5])) = true.
Proof. apply (feats_all (fun f rc => negb (moves (fph f) (fcl f rc)) || (if (fph f =? 2) && one_of (fcl f rc) [OP; HY] then fph (fnext f rc) =? 3 else one_of (fph (fnext f rc)) [4; 5]))). vm_compute. reflexivity. Qed.

Lemma fin_7 : forall f rc, In f feats -> In rc rclasses -> (negb ((fph f =? 2) && one_of (fcl f rc) [OP; HY]) || (fph (fnext f rc) =? 3)) = true.
Proof. apply (feats_all (fun f rc => negb ((fph f =? 2) && one_of (fcl f rc) [OP; HY]) || (fph (fnext f rc) =? 3))). vm_compute. reflexivity. Qed.

Lemma fin_8 : forall f rc, In f feats -> In rc rclasses -> (negb (fph f =? 3) || (rc =? NU) || negb (moves (fph f) (fcl f rc))) = true.
Proof. apply (feats_all (fun f rc => negb (fph f =? 3) || (rc =? NU) || negb (moves (fph f) (fcl f rc)))). vm_compute. reflexivity. Qed.

Lemma ok_pen_iff x : ok_pen x = true <-> x < 10000 /\ x <> 0.
Proof. unfold ok_pen. rewrite andb_true_iff, Z.ltb_lt, negb_true_iff, Z.eqb_neq. tauto. Qed.
Definition covered (f : fstate) (b d : Z) : bool := if (fph f =? 2) && one_of (fcl f b) [OP; HY] then d =? NU else true.
Lemma verdict_iff f b d : verdict f b d = true <-> base f b = true /\ (moves (fph f) (fcl f b) = true -> covered f b d = false).
Proof. unfold verdict. fold (covered f b d). rewrite andb_true_iff, negb_true_iff. destruct (moves _ _), (covered f b d); cbn; intuition discriminate. Qed.

Definition total2 (s : st) (b : Z) : Z := after (fst s) + before (fst s) b (nsum (fph (fst s)) (snd s) (fcl (fst s) b) 1).
Lemma moves_45 ph c : one_of ph [4; 5] && one_of c [PR; PO] = true -> moves ph c = false.
Proof.
  rewrite andb_true_iff. intros [A B]. apply in_dec in A, B. cbn in A, B.
  destruct A as [<-|[<-|[]]]; destruct B as [<-|[<-|[]]]; reflexivity.
Qed.
Lemma nsum_moves ph ms c : moves ph c = true -> nsum ph ms c 1 = 0.
Proof. intros E. unfold nsum. now rewrite E. Qed.
Lemma total2_ok s b : sok s -> In b rclasses -> ok_pen (total2 s b) = base (fst s) b.
Proof.
  intros (Hf & _ & H0 & _) Hr. unfold total2, base. destruct (one_of (fph (fst s)) [4; 5] && one_of (fcl (fst s) b) [PR; PO]) eqn:E.
  - rewrite nsum_1, E by (now apply moves_45).
    assert (L : 1 <= zlen (snd s)).
    { unfold zlen. destruct (snd s) eqn:Em; [|cbn; lia]. exfalso. assert (E0 : fph (fst s) = 0) by (apply H0; reflexivity). rewrite E0 in E. discriminate. }
    pose proof (fin_1 (fst s) b ltac:(assumption) ltac:(assumption)) as X. apply orb_prop in X; destruct X as [X|X]; [rewrite E in X; discriminate X|].
    apply andb_prop in X. destruct X as [X Y]. apply Z.eqb_eq in X. apply Z.leb_le in Y. rewrite X. unfold before.
    assert (G : forall n, 4 <= n -> ok_pen (0 + lift1 (if fsum (fst s) b 1 + n =? 0 then if fsub (fst s) b && (fa (fst s) =? fcl (fst s) b) then noBreak else DefaultPenalty else fsum (fst s) b 1 + n)) = false).
    { intros n Hn. destruct (Z.eqb_spec (fsum (fst s) b 1 + n) 0); [lia|]. pose proof (lift1_big (fsum (fst s) b 1 + n) ltac:(lia)).
      unfold ok_pen. destruct (Z.ltb_spec (0 + lift1 (fsum (fst s) b 1 + n)) 10000); [lia|reflexivity]. }
    cbv zeta. rewrite !G by lia. reflexivity.
  - destruct (moves (fph (fst s)) (fcl (fst s) b)) eqn:M; [rewrite nsum_moves by auto; reflexivity|].
    rewrite nsum_1, E by auto. rewrite Z.mul_0_l. reflexivity.
Qed.
Lemma total2_moves s b : sok s -> In b rclasses -> moves (fph (fst s)) (fcl (fst s) b) = true -> 0 <= total2 s b.
Proof.
  intros (Hf & _) Hr M. unfold total2. rewrite nsum_moves by auto.
  pose proof (fin_2 (fst s) b ltac:(assumption) ltac:(assumption)) as X. apply orb_prop in X; destruct X as [X|X]; [rewrite M in X; discriminate X|]. now apply Z.leb_le.
Qed.
Lemma total2_base s b l : sok s -> In b rclasses -> 0 <= l -> ok_pen (total2 s b + l) = true -> base (fst s) b = true.
Proof.
  intros Hs Hr Hl T. rewrite <- total2_ok by auto. apply ok_pen_iff in T. destruct T as [T1 T2]. apply ok_pen_iff. split; [lia|]. clear T1 T2.
  pose proof Hs as (Hf & _). unfold total2. destruct (moves (fph (fst s)) (fcl (fst s) b)) eqn:M.
  - rewrite nsum_moves by auto. pose proof (fin_3 (fst s) b ltac:(assumption) ltac:(assumption)) as X. apply orb_prop in X; destruct X as [X|X]; [rewrite M in X; discriminate X|]. now apply negb_true_iff, Z.eqb_neq in X.
  - destruct (one_of (fph (fst s)) [4; 5] && one_of (fcl (fst s) b) [PR; PO]) eqn:E.
    + rewrite nsum_1, E by auto. 
      pose proof (fin_1 (fst s) b ltac:(assumption) ltac:(assumption)) as X. apply orb_prop in X; destruct X as [X|X]; [rewrite E in X; discriminate X|].
      apply andb_prop in X. destruct X as [X Y]. apply Z.eqb_eq in X. apply Z.leb_le in Y. rewrite X. unfold before. cbv zeta.
      assert (L : 0 <= zlen (snd s)) by (unfold zlen; lia).
      destruct (Z.eqb_spec (fsum (fst s) b 1 + 4 * zlen (snd s)) 0).
      * match goal with |- context [if ?x then noBreak else _] => destruct x end; intros Y0; vm_compute in Y0; discriminate.
      * unfold lift1, DefaultPenalty, noBreak. destruct (Z.gtb_spec (fsum (fst s) b 1 + 4 * zlen (snd s)) 1); lia.
    + rewrite nsum_1, E, Z.mul_0_l by auto.
      pose proof (fin_4 (fst s) b ltac:(assumption) ltac:(assumption)) as X. now apply negb_true_iff, Z.eqb_neq in X.
Qed.

(* ---- late penalties ---- *)
Lemma run_ok : forall cs s, sok s -> Forall (fun c => In c rclasses) cs -> sok (run lnext s cs).
Proof. induction cs as [|c cs IH]; intros s Hs Hc; [exact Hs|]. inversion Hc; subst. cbn. apply IH; auto. now apply lnext_ok. Qed.
Notation late := (tailsum lnext lpens).
Lemma row_2_ge s rc j : sok s -> In rc rclasses -> (2 <= j)%nat -> 0 <= nth j (lpens s rc) 0.
Proof.
  intros Hs Hr Hj. rewrite row_2 by auto. apply lift1_ge. pose proof (fsum_2 (fst s) rc j (proj1 Hs) Hr Hj) as [A _].
  pose proof (nsum_ge (fph (fst s)) (snd s) (fcl (fst s) rc) j Hj). lia.
Qed.
Lemma late_ge : forall cs s d, sok s -> Forall (fun c => In c rclasses) cs -> (2 <= d)%nat -> 0 <= late s cs d.
Proof.
  induction cs as [|c cs IH]; intros s d Hs Hc Hd; [cbn; lia|]. inversion Hc; subst. cbn [tailsum].
  pose proof (row_2_ge s c d Hs H1 Hd). pose proof (IH (lnext s c) (S d) (lnext_ok s c H1 Hs) H2 ltac:(lia)). lia.
Qed.
Lemma move_45 f rc : In f feats -> In rc rclasses -> moves (fph f) (fcl f rc) = true -> one_of (fph f) [3; 4; 5] = true -> one_of (fph (fnext f rc)) [4; 5] = true.
Proof.
  intros Hf Hr M H. pose proof (fin_5 f rc ltac:(assumption) ltac:(assumption)) as X. apply orb_prop in X; destruct X as [X|X]; [rewrite M, H in X; discriminate X|exact X].
Qed.
(* a number that covers the position ends with a penalty for it, or is still open *)
Lemma late_open : forall cs s d, sok s -> Forall (fun c => In c rclasses) cs -> (2 <= d)%nat -> one_of (fph (fst s)) [4; 5] = true ->
  (exists m, In m (snd s) /\ Z.of_nat d <= m) ->
  10000 <= late s cs d \/ exists m, In m (snd (run lnext s cs)) /\ Z.of_nat (d + length cs) <= m.
Proof.
  induction cs as [|c cs IH]; intros s d Hs Hc Hd Hp (m & Im & Lm).
  - right. exists m. rewrite Nat.add_0_r. auto.
  - inversion Hc; subst. cbn [tailsum]. pose proof (lnext_ok s c H1 Hs) as Hn. destruct (moves (fph (fst s)) (fcl (fst s) c)) eqn:M.
    + destruct (IH (lnext s c) (S d) Hn H2 ltac:(lia)) as [L|(m' & I' & L')].
      * cbn [lnext fst]. apply move_45; auto; [apply Hs|]. apply in_dec in Hp. apply in_dec. right. exact Hp.
      * exists (m + 1). split; [|lia]. unfold lnext. cbn [snd]. change (substitute c (fa (fst s))) with (fcl (fst s) c). unfold mnext. rewrite M. apply in_or_app. left.
        apply in_map_iff. exists m. auto.
      * left. pose proof (row_2_ge s c d Hs H1 Hd). lia.
      * right. exists m'. split; [exact I'|]. cbn [length]. lia.
    + left. pose proof (late_ge cs (lnext s c) (S d) Hn H2 ltac:(lia)). rewrite row_2 by auto.
      pose proof (nsum_in _ _ _ d Hd M Hp (ex_intro _ m (conj Im Lm))). pose proof (fsum_2 (fst s) c d (proj1 Hs) H1 Hd) as [A _].
      pose proof (lift1_big (fsum (fst s) c d + nsum (fph (fst s)) (snd s) (fcl (fst s) c) d) ltac:(lia)). lia.
Qed.
Lemma llam_in s m : In m (snd s) -> m <= llam s.
Proof.
  unfold llam. intros I. assert (G : m <= fold_right Z.max 0 (snd s)); [|lia]. induction (snd s) as [|x l IH]; [contradiction|]. cbn.
  destruct I as [->|I]; [lia|]. specialize (IH I). lia.
Qed.
Lemma llam_1 ph ms c : moves ph c = false -> Z.max 1 (fold_right Z.max 0 (mnext ph ms c)) = 1.
Proof. intros M. unfold mnext. rewrite M. destruct (starts c); reflexivity. Qed.

Section Text.
Context (cs : list Z) (Hcs : Forall (fun c => In c rclasses) cs).
Notation an := (rows lnext llam lpens st0 (cs ++ [eot])).
Notation all := (cs ++ [eot]).
Definition sat (k : nat) : st := run lnext st0 (firstn k all).
Definition LV (i : nat) : bool := verdict (fst (sat (S i))) (nth (S i) all 0) (nth (S (S i)) all 0).

Lemma all_ok : Forall (fun c => In c rclasses) all.
Proof. apply Forall_app. split; auto. constructor; [|constructor]. apply in_dec. reflexivity. Qed.
Lemma sub_ok a b : Forall (fun c => In c rclasses) (skipn a (firstn b all)).
Proof.
  apply Forall_forall. intros x Hx. pose proof all_ok as H. rewrite Forall_forall in H. apply H.
  assert (G : forall n (l : list Z) y, In y (skipn n l) -> In y l) by (intros n l y Hy; rewrite <- (firstn_skipn n l); apply in_or_app; auto).
  apply G in Hx. rewrite <- (firstn_skipn b all). apply in_or_app; auto.
Qed.
Lemma nth_ok i : (i < length all)%nat -> In (nth i all 0) rclasses.
Proof. intros H. pose proof all_ok as G. rewrite Forall_forall in G. apply G. now apply nth_In. Qed.
Lemma sat_ok k : sok (sat k).
Proof. apply run_ok; [apply st0_ok|]. apply (sub_ok 0 k). Qed.
Lemma sat_S k : (k < length all)%nat -> sat (S k) = lnext (sat k) (nth k all 0).
Proof.
  intros H. unfold sat. assert (E : firstn (S k) all = firstn k all ++ [nth k all 0]).
  { revert H. generalize all. induction k as [|k IH]; intros [|x l] H; cbn in H; try lia; [reflexivity|]. cbn [firstn nth app]. f_equal. apply IH. lia. }
  rewrite E, run_app. reflexivity.
Qed.
Lemma len_an : length an = S (length cs).
Proof. rewrite rows_len, app_length. cbn. lia. Qed.
Lemma lam_an k : (k < length an)%nat -> fst (nth k an (0, [])) = llam (sat (S k)).
Proof. intros H. rewrite rows_len in H. rewrite rows_nth by auto. reflexivity. Qed.

(* the penalties at position i after k rows *)
Lemma total_at w i k : Forall (fun a : answer => (length (snd a) <= w)%nat) an -> (S (S i) <= k)%nat -> (k <= length all)%nat ->
  total (firstn k an) w i = total2 (sat (S i)) (nth (S i) all 0) + late (sat (S (S i))) (skipn (S (S i)) (firstn k all)) 2.
Proof.
  intros Hw Hi Hk. rewrite total_prefix by auto. rewrite firstn_firstn. replace (Nat.min i k) with i by lia.
  assert (E : forall j, (j < k)%nat -> skipn j (firstn k all) = nth j all 0 :: skipn (S j) (firstn k all)).
  { intros j Hj. assert (L : (j < length (firstn k all))%nat) by (rewrite firstn_length; lia).
    rewrite <- (nth_firstn k all j 0 Hj). revert L. generalize (firstn k all). clear. intros l. revert j.
    induction l as [|x l IH]; intros j H; [cbn in H; lia|]. destruct j; [reflexivity|]. cbn [skipn nth]. apply IH. cbn in H. lia. }
  rewrite E, E by lia. cbn [tailsum]. change (run lnext st0 (firstn i all)) with (sat i). rewrite <- !sat_S by lia.
  pose proof (sat_ok i). pose proof (sat_ok (S i)). rewrite row_0, row_1 by (auto; apply nth_ok; lia). rewrite <- sat_S by lia. unfold total2. lia.
Qed.

Lemma eager_line text : map (fun _ : Z => 0) text = map (fun _ => 0) cs -> eager_answers text an LV.
Proof.
  intros Hlen. assert (Lt : length text = length cs) by (rewrite <- (map_length (fun _ => 0) text), Hlen, map_length; reflexivity). clear Hlen.
  destruct (rows_width lnext llam lpens all st0) as (w & Hw).
  assert (La : length all = S (length cs)) by (rewrite app_length; cbn; lia).
  assert (Sk : forall k i, (k <= length an)%nat -> Z.of_nat i < Z.of_nat k - match k with O => 0 | S j => Z.max (fst (nth j an (0, []))) 0 end ->
     (S (S i) <= k)%nat /\ Z.of_nat i < Z.of_nat k - llam (sat k)).
  { intros k i Hk Hs. destruct k as [|j]; [lia|]. rewrite lam_an in Hs by lia. unfold llam in *. lia. }
  assert (Ks : forall k i, (k <= length an)%nat -> (1 <= k)%nat -> Z.of_nat i < Z.of_nat k - llam (sat k) ->
     Z.of_nat i < Z.of_nat k - match k with O => 0 | S j => Z.max (fst (nth j an (0, []))) 0 end).
  { intros k i Hk H1 Hs. destruct k as [|j]; [lia|]. rewrite lam_an by lia. unfold llam in *. lia. }
  assert (Tk : forall k i, (S (S i) <= k)%nat -> (k <= length an)%nat ->
     breakable (false, false) false (eff (inputs text) (map row1 (firstn k an)) i) =
     ok_pen (total2 (sat (S i)) (nth (S i) all 0) + late (sat (S (S i))) (skipn (S (S i)) (firstn k all)) 2)).
  { intros k i Hi Hk. rewrite len_an in Hk. rewrite (test_pos text _ w), (total_at w) by (try (rewrite ?La; lia); auto;
      apply Forall_forall; intros a Ia; rewrite Forall_forall in Hw; apply Hw; rewrite <- (firstn_skipn k an); apply in_or_app; auto). reflexivity. }
  split.
  - intros k i Hk Hs T. destruct (Sk k i Hk Hs) as [Hi Hs']. rewrite Tk in T by auto. rewrite len_an in Hk. clear Sk Ks Tk Hs.
    pose proof (sat_ok (S i)) as Ok1. pose proof (sat_ok (S (S i))) as Ok2. pose proof (nth_ok (S i) ltac:(lia)) as N1.
    pose proof (late_ge (skipn (S (S i)) (firstn k all)) _ 2 Ok2 (sub_ok _ _) ltac:(lia)) as Lg.
    unfold LV. apply verdict_iff. split; [exact (total2_base _ _ _ Ok1 N1 Lg T)|]. intros M.
    pose proof (total2_moves _ _ Ok1 N1 M) as Tg. destruct (covered _ _ _) eqn:Inn; [exfalso|reflexivity].
    (* the match that covers the position *)
    assert (Ex : exists m, In m (snd (sat (S (S i)))) /\ 2 <= m).
    { rewrite sat_S by lia. unfold lnext. cbn [snd]. change (substitute (nth (S i) all 0) (fa (fst (sat (S i))))) with (fcl (fst (sat (S i))) (nth (S i) all 0)).
      unfold mnext. rewrite M. destruct Ok1 as (Hf & Hm & H0 & _). destruct (snd (sat (S i))) as [|m ms] eqn:Em.
      - assert (E0 : fph (fst (sat (S i))) = 0) by (apply H0; reflexivity). rewrite E0 in M. discriminate.
      - exists (m + 1). inversion Hm; subst. split; [left; reflexivity|lia]. }
    destruct Ex as (m & Im & Lm).
    assert (Rn : forall a, (a <= k)%nat -> run lnext (sat a) (skipn a (firstn k all)) = sat k).
    { intros a Ha. unfold sat. rewrite <- run_app. f_equal. rewrite <- (firstn_skipn a (firstn k all)) at 2. rewrite firstn_firstn. f_equal. f_equal. lia. }
    assert (Ln : forall a, length (skipn a (firstn k all)) = (k - a)%nat) by (intros a; rewrite skipn_length, firstn_length; lia).
    assert (Key : forall a d, (a <= k)%nat -> (2 <= d)%nat -> (d + (k - a) = k - i)%nat -> one_of (fph (fst (sat a))) [4; 5] = true -> (exists m, In m (snd (sat a)) /\ Z.of_nat d <= m) ->
       10000 <= late (sat a) (skipn a (firstn k all)) d).
    { intros a d Ha Hd Hda Hp He. destruct (late_open (skipn a (firstn k all)) (sat a) d (sat_ok a) (sub_ok _ _) Hd Hp He) as [|(m' & I' & L')]; [auto|].
      exfalso. rewrite Rn in I' by auto. apply llam_in in I'. rewrite Ln in L'. lia. }
    assert (G : 10000 <= late (sat (S (S i))) (skipn (S (S i)) (firstn k all)) 2).
    { assert (Ph : fph (fst (sat (S (S i)))) = 3 /\ nth (S (S i)) all 0 = NU \/ one_of (fph (fst (sat (S (S i))))) [4; 5] = true).
      { rewrite (sat_S (S i)) by lia. cbn [lnext fst]. set (f := fst (sat (S i))) in *. set (b := nth (S i) all 0) in *.
        pose proof (proj1 Ok1) as Hf. change (In f feats) in Hf. pose proof (fin_6 f b ltac:(assumption) ltac:(assumption)) as X. apply orb_prop in X; destruct X as [X|X]; [rewrite M in X; discriminate X|].
        unfold covered in Inn. destruct ((fph f =? 2) && one_of (fcl f b) [OP; HY]); [left|right; auto]. apply Z.eqb_eq in X, Inn. auto. }
      destruct Ph as [[P3 Nu]|P45].
      - assert (Hk2 : (S (S i) < k)%nat).
        { destruct (Nat.eq_dec k (S (S i))) as [->|]; [|lia]. apply llam_in in Im. lia. }
        assert (E : skipn (S (S i)) (firstn k all) = nth (S (S i)) all 0 :: skipn (S (S (S i))) (firstn k all)).
        { assert (L : (S (S i) < length (firstn k all))%nat) by (rewrite firstn_length; lia).
          rewrite <- (nth_firstn k all (S (S i)) 0 Hk2). revert L. generalize (firstn k all). generalize (S (S i)). clear. intros j l. revert j.
          induction l as [|x l IH]; intros j H; [cbn in H; lia|]. destruct j; [reflexivity|]. cbn [skipn nth]. apply IH. cbn in H. lia. }
        rewrite E. cbn [tailsum]. rewrite <- sat_S by lia. pose proof (row_2_ge _ (nth (S (S i)) all 0) 2 Ok2 (nth_ok (S (S i)) ltac:(lia)) ltac:(lia)).
        assert (Mv : moves (fph (fst (sat (S (S i))))) (fcl (fst (sat (S (S i)))) (nth (S (S i)) all 0)) = true) by (rewrite P3, Nu; reflexivity).
        assert (K : 10000 <= late (sat (S (S (S i)))) (skipn (S (S (S i))) (firstn k all)) 3); [|lia].
        apply Key; try lia.
        + rewrite sat_S by lia. cbn [lnext fst]. apply move_45; auto; [apply Ok2|apply nth_ok; lia|rewrite P3; reflexivity].
        + exists (m + 1). split; [|lia]. rewrite sat_S by lia. unfold lnext. cbn [snd].
          change (substitute (nth (S (S i)) all 0) (fa (fst (sat (S (S i)))))) with (fcl (fst (sat (S (S i)))) (nth (S (S i)) all 0)).
          unfold mnext. rewrite Mv. apply in_or_app. left. apply in_map_iff. exists m. auto.
      - apply Key; try lia; auto. exists m. split; auto; lia. }
    apply ok_pen_iff in T. lia.
  - intros k i Hk Hs Mn V. destruct (Sk k i Hk Hs) as [Hi Hs']. rewrite Tk by auto.
    assert (Mn' : forall j, (1 <= j < k)%nat -> Z.of_nat i < Z.of_nat j - llam (sat j) -> False).
    { intros j Hj Sj. apply (Mn j); [lia|]. apply Ks; [lia|lia|auto]. }
    rewrite len_an in Hk. clear Sk Ks Tk Hs Mn. unfold LV in V. apply verdict_iff in V. destruct V as [Vb Vi].
    pose proof (sat_ok (S i)) as Ok1. pose proof (sat_ok (S (S i))) as Ok2. pose proof (nth_ok (S i) ltac:(lia)) as N1.
    assert (L0 : late (sat (S (S i))) (skipn (S (S i)) (firstn k all)) 2 = 0); [|rewrite L0, Z.add_0_r, total2_ok by auto; exact Vb].
    destruct (Nat.eq_dec k (S (S i))) as [->|Nk].
    + rewrite skipn_all2 by (rewrite firstn_length; lia). reflexivity.
    + destruct (moves (fph (fst (sat (S i)))) (fcl (fst (sat (S i))) (nth (S i) all 0))) eqn:M.
      * specialize (Vi eq_refl). unfold covered in Vi. destruct ((fph (fst (sat (S i))) =? 2) && one_of (fcl (fst (sat (S i))) (nth (S i) all 0)) [OP; HY]) eqn:E2; [|discriminate].
        apply Z.eqb_neq in Vi.
        assert (P3 : fph (fst (sat (S (S i)))) = 3).
        { rewrite (sat_S (S i)) by lia. cbn [lnext fst]. set (f := fst (sat (S i))) in *. set (b := nth (S i) all 0) in *.
          pose proof (proj1 Ok1) as Hf. change (In f feats) in Hf. pose proof (fin_7 f b ltac:(assumption) ltac:(assumption)) as X. apply orb_prop in X; destruct X as [X|X]; [rewrite E2 in X; discriminate X|]. now apply Z.eqb_eq. }
        pose proof (nth_ok (S (S i)) ltac:(lia)) as N2.
        assert (M2 : moves (fph (fst (sat (S (S i))))) (fcl (fst (sat (S (S i)))) (nth (S (S i)) all 0)) = false).
        { set (f := fst (sat (S (S i)))) in *. set (b := nth (S (S i)) all 0) in *.
          pose proof (proj1 Ok2) as Hf. change (In f feats) in Hf. pose proof (fin_8 f b ltac:(assumption) ltac:(assumption)) as X. apply orb_prop in X; destruct X as [X|X]; [|apply negb_true_iff in X; exact X].
          apply orb_prop in X; destruct X as [X|X]; [rewrite P3 in X; discriminate X|apply Z.eqb_eq in X; contradiction]. }
        assert (K3 : k = S (S (S i))).
        { destruct (Nat.eq_dec k (S (S (S i)))) as [|N3]; [auto|]. exfalso. apply (Mn' (S (S (S i)))); [lia|].
          rewrite sat_S by lia. unfold llam, lnext. cbn [snd]. change (substitute (nth (S (S i)) all 0) (fa (fst (sat (S (S i)))))) with (fcl (fst (sat (S (S i)))) (nth (S (S i)) all 0)).
          rewrite llam_1 by auto. lia. }
        subst k.
        assert (E : skipn (S (S i)) (firstn (S (S (S i))) all) = [nth (S (S i)) all 0]).
        { assert (L : (S (S i) < length all)%nat) by lia. revert L. generalize (S (S i)) as j. generalize all as l. clear.
          induction l as [|x l IH]; intros j H; [cbn in H; lia|]. destruct j; [reflexivity|]. cbn [firstn skipn nth]. apply IH. cbn in H. lia. }
        rewrite E. cbn [tailsum]. rewrite row_2 by (auto; lia). destruct (fsum_2 (fst (sat (S (S i)))) (nth (S (S i)) all 0) 2 (proj1 Ok2) N2 ltac:(lia)) as [_ F2].
        rewrite (F2 P3). assert (Nz : nsum (fph (fst (sat (S (S i))))) (snd (sat (S (S i)))) (fcl (fst (sat (S (S i)))) (nth (S (S i)) all 0)) 2 = 0).
        { unfold nsum. rewrite M2, P3. induction (snd (sat (S (S i)))) as [|x l IH]; [reflexivity|]. unfold sum_at in *. cbn [map fold_right]. rewrite IH. reflexivity. }
        rewrite Nz. reflexivity.
      * exfalso. apply (Mn' (S (S i))); [lia|]. rewrite sat_S by lia. unfold llam, lnext. cbn [snd].
        change (substitute (nth (S i) all 0) (fa (fst (sat (S i))))) with (fcl (fst (sat (S i))) (nth (S i) all 0)). rewrite llam_1 by auto. lia.
Qed.
Lemma lam_ge_an : Forall (fun a : answer => 1 <= fst a) an.
Proof.
  apply Forall_forall. intros a Ia. apply (In_nth _ _ (0, [])) in Ia. destruct Ia as (n & Hn & <-). rewrite lam_an by auto. unfold llam. lia.
Qed.
Lemma lam_last_an : fst (last an (0, [])) <= 1.
Proof.
  assert (G : forall l s, fst (last (rows lnext llam lpens s (l ++ [eot])) (0, [])) <= 1).
  { induction l as [|x l IH]; intros s.
    - cbn [app rows last fst]. unfold llam, lnext. cbn [snd].
      assert (M : moves (fph (fst s)) (substitute eot (fa (fst s))) = false).
      { change (substitute eot (fa (fst s))) with eot. unfold moves. replace (one_of eot [OP; HY; NU]) with false by reflexivity.
        replace (eot =? NU) with false by reflexivity. replace (one_of eot [NU; SY; IS; CL; CP]) with false by reflexivity. now rewrite !andb_false_r. }
      rewrite llam_1 by auto. lia.
    - cbn [app rows]. specialize (IH (lnext s x)). destruct (rows lnext llam lpens (lnext s x) (l ++ [eot])) eqn:E; [cbn; destruct l; discriminate|exact IH]. }
  apply G.
Qed.
End Text.
