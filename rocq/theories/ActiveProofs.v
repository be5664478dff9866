(* ActiveProofs.v -- bounds on the recognisers at work and on the penalties. *)
From Coq Require Import List ZArith Lia Bool Permutation.
From Verif Require Import Base PrioQ PrioQProofs Recognizer Bag SegSpec Active Line LineSum LineCor.
From Verif Require Words WordProofs WordVerdict Grapheme GraphemeProofs.
Import ListNotations.
Open Scope Z_scope.

Definition within (k : Z) (a : answer) : Prop := Forall (fun x => Z.abs x <= k) (snd a).

Lemma after_cons {B} (st : B -> Z -> B * Z * list Z) b r t : after st b (r :: t) = after st (fst (fst (st b r))) t.
Proof. reflexivity. Qed.

Lemma work_bound {B} (told : B -> Z -> option nat) (st : B -> Z -> B * Z * list Z) b k :
  (forall rs r, exists n, told (after st b rs) r = Some n /\ (n <= k)%nat) -> forall rs, exists n, work told st b rs = Some n /\ (n <= k * length rs)%nat.
Proof.
  intros H rs. revert b H. induction rs as [|r t IH]; intros b H; [exists 0%nat; split; [reflexivity|lia]|]. cbn [work].
  destruct (H [] r) as (n & E & L). cbn in E. rewrite E. cbn [obind].
  destruct (IH (fst (fst (st b r)))) as (m & -> & M); [intros rs r'; apply (H (r :: rs))|]. cbn [obind]. eexists. split; [reflexivity|]. cbn [length]. lia.
Qed.
Lemma work_app {B} (told : B -> Z -> option nat) (st : B -> Z -> B * Z * list Z) : forall a b c,
  work told st b (a ++ c) = do n <- work told st b a; do m <- work told st (after st b a) c; Some (n + m)%nat.
Proof.
  induction a as [|r t IH]; intros b c; cbn [work app].
  - cbn [obind]. change (after st b []) with b. destruct (work told st b c); reflexivity.
  - destruct (told b r) as [n|]; cbn [obind]; [|reflexivity]. rewrite IH. rewrite after_cons.
    destruct (work told st _ t) as [m|]; cbn [obind]; [|reflexivity]. destruct (work told st _ c); cbn [obind]; [|reflexivity]. f_equal. lia.
Qed.

(* ---- graphemes ---- *)
Section Graphemes.
Import Grapheme GraphemeProofs.
Context (table : Z -> Z -> bool) (pict : Z -> bool).
Notation cls := (CodePointClassFor table pict).
Notation step := (gb_step table pict).

Lemma gb_one e p r : pvalid p -> exists e', step (Some (conc e p)) r = (Some (conc e' (pnext p (cls r))), plam (pnext p (cls r)), ppens p (cls r)).
Proof.
  intros V. destruct (GraphemeProofs.round e p r (cls r) V (cls_range table pict r)) as (e' & E). exists e'.
  unfold gb_step. cbn [obind]. rewrite E. reflexivity.
Qed.
Lemma gb_after : forall rs e p, pvalid p -> exists e' p', pvalid p' /\ after step (Some (conc e p)) rs = Some (conc e' p').
Proof.
  induction rs as [|r t IH]; intros e p V; [exists e, p; auto|]. rewrite after_cons. destruct (gb_one e p r V) as (e' & E). rewrite E. cbn [fst].
  apply IH. now apply pnext_valid.
Qed.
Lemma gb_told e p r : pvalid p -> exists n, gtold table pict (Some (conc e p)) r = Some n /\ (n <= 2)%nat.
Proof.
  intros V. unfold gtold. cbn [obind]. pose proof (cls_range table pict r) as Hc. set (c := cls r) in *. clearbody c. unfold classes in Hc.
  destruct p as [| | | | |n|n|]; try (destruct n as [|n|n]; [| |simpl in V; lia]);
  repeat (destruct Hc as [<-|Hc]; [eexists; split; [vm_compute; reflexivity|lia]|]); contradiction.
Qed.
Lemma ppens_bound p c : Forall (fun x => Z.abs x <= 40000) (ppens p c).
Proof.
  unfold ppens, pfirst, psecond, pthird, pjoin. repeat constructor.
  - destruct p; repeat match goal with |- context [if ?b then _ else _] => destruct b end; lia.
  - cbv zeta. destruct p; repeat match goal with |- context [if ?b then _ else _] => destruct b end; try lia; cbn; lia.
  - destruct p; try constructor. destruct (c =? LF); repeat constructor; lia.
Qed.
Lemma gb_within : forall rs e p, pvalid p -> Forall (within 40000) (answers step (Some (conc e p)) rs).
Proof.
  induction rs as [|r t IH]; intros e p V; [constructor|]. cbn [answers]. destruct (gb_one e p r V) as (e' & E). rewrite E. cbn [fst snd].
  constructor; [apply ppens_bound|]. apply IH. now apply pnext_valid.
Qed.
End Graphemes.

(* ---- words ---- *)
Section Words.
Import Words WordProofs WordVerdict.
Context (table : Z -> Z -> bool) (pict : Z -> bool).
Notation cls := (CodePointClassFor table pict).
Notation step := (wb_step table pict).

Lemma wb_one b st r : wvalid (fst st) -> in_state b st -> exists b', step (Some b) r = (Some b', wlam (wnext st (cls r)), wpens st (cls r)) /\ in_state b' (wnext st (cls r)).
Proof.
  intros V I. destruct (WordProofs.round b st r (cls r) V (cls_range table pict r) I) as (b' & E & I'). exists b'. split; [|auto].
  unfold wb_step. cbn [obind]. rewrite E. reflexivity.
Qed.
Lemma wb_after : forall rs b st, wvalid (fst st) -> in_state b st -> exists b' st', wvalid (fst st') /\ in_state b' st' /\ after step (Some b) rs = Some b'.
Proof.
  induction rs as [|r t IH]; intros b st V I; [exists b, st; auto|]. rewrite after_cons. destruct (wb_one b st r V I) as (b' & E & I'). rewrite E. cbn [fst].
  apply (IH b' (wnext st (cls r))); auto. cbn [wnext fst]. now apply wbnext_valid.
Qed.
Lemma rules_six c : (length (rules c) <= 6)%nat.
Proof. unfold rules. repeat match goal with |- context [if ?x then _ else _] => destruct x end; cbn; lia. Qed.
Lemma wb_told b st r : in_state b st -> exists n, wtold table pict (Some b) r = Some n /\ (n <= 13)%nat.
Proof.
  intros (I & (e & e' & P) & _). unfold wtold, StartRulesFor. cbn [obind].
  assert (L : (length (q (wpub b)) <= 7)%nat).
  { rewrite (Permutation_length P). unfold bag. rewrite app_length. destruct (fst st), (snd st =? ZWJ); cbn; lia. }
  destruct (_ && _); cbn [obind].
  - exists (length (q (wpub b))). split; [reflexivity|lia].
  - destruct (WordProofs.subscribe_ok (wlong b) (rules (cls r)) (wpub b) I) as (p' & E & _ & P'). rewrite E. cbn [obind wpub].
    eexists. split; [reflexivity|]. rewrite (Permutation_length P'), app_length, map_length. pose proof (rules_six (cls r)). lia.
Qed.
Lemma wpens_bound st c : Forall (fun x => Z.abs x <= 40000) (wpens st c).
Proof.
  unfold wpens. constructor; [|constructor].
  - unfold wfirst. destruct (fst st); repeat match goal with |- context [if ?b then _ else _] => destruct b end; lia.
  - unfold wsecond, wjoin. cbv zeta. destruct (ignored c) eqn:Ig.
    + assert (J : (c =? LF) = false /\ (c =? Newline) = false /\ (c =? Pictographic) = false).
      { unfold ignored in Ig. destruct (Z.eqb_spec c LF), (Z.eqb_spec c Newline), (Z.eqb_spec c Pictographic); subst; try discriminate; auto. }
      destruct J as (-> & -> & ->). cbn [orb andb].
      destruct (fst st), (snd st =? ZWJ), (negb (is_nl (snd st))); cbn [andb];
        repeat match goal with |- context [if ?b then _ else _] => destruct b end; lia.
    + cbn [andb]. destruct (fst st), (snd st =? ZWJ), (c =? LF), (c =? Newline), (c =? Pictographic); cbn [andb orb];
        repeat match goal with |- context [if ?b then _ else _] => destruct b end; lia.
  - unfold wtail. assert (R : forall k, Forall (fun x => Z.abs x <= 40000) (repeat 0 k ++ [10000])).
    { intros k. apply Forall_app. split; [|repeat constructor; lia]. apply Forall_forall. intros x Hx. apply repeat_spec in Hx. subst. lia. }
    destruct (fst st); try constructor; repeat match goal with |- context [if ?b then _ else _] => destruct b end; auto; repeat constructor; lia.
Qed.
Lemma wb_within : forall rs b st, wvalid (fst st) -> in_state b st -> Forall (within 40000) (answers step (Some b) rs).
Proof.
  induction rs as [|r t IH]; intros b st V I; [constructor|]. cbn [answers]. destruct (wb_one b st r V I) as (b' & E & I'). rewrite E. cbn [fst snd].
  constructor; [apply wpens_bound|]. apply (IH b' (wnext st (cls r))); auto. cbn [wnext fst]. now apply wbnext_valid.
Qed.
End Words.

(* ---- lines ---- *)
Section Lines.
Context (table : Z -> Z -> bool) (comb : Z -> bool).
Notation cls := (lcls table comb).
Notation step := (lb_step table comb).

Definition states (s : st) (rs : list Z) : st := fold_left (fun s r => lnext s (cls r)) rs s.
Lemma states_ok : forall rs s, sok s -> sok (states s rs).
Proof. induction rs as [|r t IH]; intros s H; [exact H|]. apply (IH (lnext s (cls r))). apply lnext_ok; auto. apply lcls_in. Qed.
Lemma lb_after : forall rs b s, sok s -> in_state b s -> exists b', in_state b' (states s rs) /\ after step (Some b) rs = Some b'.
Proof.
  induction rs as [|r t IH]; intros b s V I; [exists b; auto|]. rewrite after_cons. destruct (lb_round table comb b s r V I) as (b' & E & I'). rewrite E. cbn [fst].
  apply (IH b' (lnext s (cls r))); auto. apply lnext_ok; auto. apply lcls_in.
Qed.
Lemma lb_told b s r : sok s -> in_state b s ->
  ltold table comb (Some b) r = Some (length (fixed (fst s)) + length (snd s) + length (news (fst s) (fcl (fst s) (cls r))))%nat.
Proof.
  intros V (I & P & Bk & La). unfold ltold. cbn [obind]. unfold CodePointClassFor. fold (cls r). cbv zeta. cbn [lpub lsh llong]. rewrite La.
  change (substitute (cls r) (fa (fst s))) with (fcl (fst s) (cls r)).
  assert (L : length (q (lpub b)) = (length (fixed (fst s)) + length (snd s))%nat).
  { rewrite <- (map_length norm), (Permutation_length P). unfold bag, nums. now rewrite app_length, map_length. }
  unfold StartRulesFor, news. cbn [lsh blockedRI]. rewrite Bk. destruct (_ && _); cbn [obind lpub].
  - rewrite L. cbn [length]. f_equal. lia.
  - destruct (LineSum.subscribe_ok (fcl (fst s) (cls r)) (rules (fcl (fst s) (cls r))) (lpub b) I) as (p' & E & _ & P'). cbn [llong lpub lsh]. rewrite E. cbn [obind lpub].
    rewrite (Permutation_length P'), app_length, !map_length, L. reflexivity.
Qed.
Lemma twelve f rc : In f feats -> In rc rclasses -> (length (fixed f) + length (news f (fcl f rc)) <= 12)%nat.
Proof.
  intros Hf Hr. set (P := fun f rc => Nat.leb (length (fixed f) + length (news f (fcl f rc))) 12).
  assert (X : P f rc = true) by finite P. now apply Nat.leb_le.
Qed.
Lemma parts f rc : In f feats -> In rc rclasses -> number_part rc = false -> moves (fph f) (substitute rc (fa f)) = false /\ starts (substitute rc (fa f)) = false.
Proof.
  intros Hf Hr N. set (P := fun f rc => number_part rc || (negb (moves (fph f) (substitute rc (fa f))) && negb (starts (substitute rc (fa f))))).
  assert (X : P f rc = true) by finite P. unfold P in X. rewrite N in X. cbn [orb] in X. apply andb_prop in X. now rewrite !negb_true_iff in X.
Qed.
Lemma states_app s a b : states s (a ++ b) = states (states s a) b.
Proof. apply fold_left_app. Qed.
Lemma ms_run : forall rs, (length (snd (states st0 rs)) <= number_run (map cls rs))%nat.
Proof.
  induction rs as [|r t IH] using rev_ind; [reflexivity|]. rewrite states_app, map_app. unfold number_run in *. rewrite rev_app_distr. cbn [map rev app run_back].
  pose proof (states_ok t st0 st0_ok) as V. set (s := states st0 t) in *. change (states s [r]) with (lnext s (cls r)).
  unfold lnext, mnext. cbn [snd]. rewrite app_length. destruct (number_part (cls r)) eqn:N.
  - destruct (moves _ _), (starts _); rewrite ?map_length; cbn [length]; lia.
  - destruct (parts (fst s) (cls r) (proj1 V) (lcls_in table comb r) N) as [-> ->]. cbn. lia.
Qed.

(* penalties *)
Lemma sum_pens_app a b : forall j, nth j (sum_pens (a ++ b)) 0 = nth j (sum_pens a) 0 + nth j (sum_pens b) 0.
Proof.
  intros j. unfold sum_pens. rewrite !(proj1 (fold_pens _ [])). replace (nth j (@nil Z) 0) with 0 by (destruct j; reflexivity).
  unfold sum_at. rewrite map_app. induction (map (fun l => nth j l 0) a) as [|x l IH]; cbn in *; lia.
Qed.
Lemma base_bound f rc j : In f feats -> In rc rclasses ->
  Z.abs (nth j (sum_pens (map snd (map (lev (fa f) (fsub f rc) (fcl f rc)) (fixed f ++ news f (fcl f rc))))) 0) <= 38000.
Proof.
  intros Hf Hr. set (P := fun f rc => forallb (fun x => Z.abs x <=? 38000) (sum_pens (map snd (map (lev (fa f) (fsub f rc) (fcl f rc)) (fixed f ++ news f (fcl f rc)))))).
  assert (X : P f rc = true) by finite P. unfold P in X. rewrite forallb_forall in X.
  set (l := sum_pens _) in *. destruct (nth_in_or_default j l 0) as [H|H]; [apply Z.leb_le; auto|rewrite H; cbn; lia].
Qed.
Lemma numpens_bound ph m c j : 0 <= nth j (numpens ph m c) 0 <= 4.
Proof.
  unfold numpens. destruct (one_of ph [4; 5]); [|destruct j; cbn; lia]. unfold ps.
  assert (E : p 25 = 4) by reflexivity. rewrite E. destruct j as [|[|j]]; cbn [nth]; [lia|destruct (one_of c [PR; PO]); lia|].
  destruct (nth_in_or_default j (repeat 4 (Z.to_nat (m - 1))) 0) as [H|H]; [apply repeat_spec in H|]; lia.
Qed.
Lemma nums_bound last sub c ph j : In c eclasses -> In ph phases -> forall ms, Forall (fun m => 1 <= m) ms ->
  0 <= sum_at (map snd (map (lev last sub c) (nums ph ms))) j <= 4 * Z.of_nat (length ms).
Proof.
  intros Hc Hp ms Hm. induction Hm as [|m ms M Hm IH]; [cbn; lia|]. cbn [nums map]. change (map (fun m0 => rc1 m0 (num_label ph)) ms) with (nums ph ms).
  rewrite lev_num by auto. unfold sum_at in *. cbn [map fold_right length]. pose proof (numpens_bound ph m c j).
  destruct (moves ph c); cbn [snd]; [replace (nth j (@nil Z) 0) with 0 by (destruct j; reflexivity)|]; lia.
Qed.
Lemma all_bound s rc j : sok s -> In rc rclasses -> Z.abs (nth j (sum_pens (all_pens s rc)) 0) <= 38000 + 4 * Z.of_nat (length (snd s)).
Proof.
  intros (Hf & Hm & H0 & _) Hr. unfold all_pens, bag. rewrite <- app_assoc, !map_app, !sum_pens_app.
  pose proof (base_bound (fst s) rc j Hf Hr) as Bb. rewrite !map_app, sum_pens_app in Bb.
  assert (N : 0 <= nth j (sum_pens (map snd (map (lev (fa (fst s)) (fsub (fst s) rc) (fcl (fst s) rc)) (nums (fph (fst s)) (snd s))))) 0 <= 4 * Z.of_nat (length (snd s))).
  { unfold sum_pens. rewrite (proj1 (fold_pens _ [])). replace (nth j (@nil Z) 0) with 0 by (destruct j; reflexivity). rewrite Z.add_0_l.
    destruct (Z.eq_dec (fph (fst s)) 0) as [E|E].
    - apply H0 in E. rewrite E. cbn. lia.
    - apply nums_bound; auto using fcl_in, phases_in. }
  lia.
Qed.
Lemma patch_in i l x : In x (patch i l) -> In x l \/ Z.abs x <= 10000.
Proof.
  unfold patch, setPenalty1, noBreak, DefaultPenalty. intros H. destruct l as [|a [|b0 t]]; [| |destruct (b0 =? 0)];
    destruct i; cbn in *; repeat (destruct H as [H|H]; [subst; cbn; auto; right; lia|]); tauto.
Qed.
Lemma lpens_bound s rc : sok s -> In rc rclasses -> Forall (fun x => Z.abs x <= 48000 + 4 * Z.of_nat (length (snd s))) (lpens s rc).
Proof.
  intros V Hr. apply Forall_forall. intros x Hx. unfold lpens in Hx. apply in_map_iff in Hx. destruct Hx as (y & <- & Hy).
  assert (Y : Z.abs y <= 38000 + 4 * Z.of_nat (length (snd s))).
  { apply patch_in in Hy. destruct Hy as [Hy|Hy]; [|lia]. apply (In_nth _ _ 0) in Hy. destruct Hy as (j & _ & <-). now apply all_bound. }
  unfold lift1, noBreak, DefaultPenalty. destruct (y >? _); lia.
Qed.
Lemma lb_within : forall rs b s, sok s -> in_state b s ->
  Forall (within (48000 + 4 * Z.of_nat (length (snd s) + length rs))) (answers step (Some b) rs).
Proof.
  induction rs as [|r t IH]; intros b s V I; [constructor|]. cbn [answers]. destruct (lb_round table comb b s r V I) as (b' & E & I'). rewrite E. cbn [fst snd].
  constructor.
  - eapply Forall_impl; [|apply lpens_bound; auto; apply lcls_in]. intros x Hx. cbn beta in *. cbn [length]. lia.
  - specialize (IH b' (lnext s (cls r)) (lnext_ok s _ (lcls_in _ _ r) V) I').
    assert (L : (length (snd (lnext s (cls r))) <= S (length (snd s)))%nat).
    { unfold lnext, mnext. cbn [snd]. rewrite app_length. destruct (moves _ _), (starts _); rewrite ?map_length; cbn [length]; lia. }
    eapply Forall_impl; [|exact IH]. intros a. unfold within. apply Forall_impl. cbn [length]. intros x Hx. cbn beta in *. cbn [length]. lia.
Qed.

(* n digits *)
Context (d : Z) (Hd : cls d = NU).
Fixpoint down (n : nat) : list Z := match n with O => [] | S k => Z.of_nat n :: down k end.
Lemma down_up n : map (fun m => m + 1) (down n) ++ [1] = down (S n).
Proof. induction n as [|n IH]; [reflexivity|]. cbn [down map app] in *. rewrite IH. f_equal. lia. Qed.
Lemma digits n : states st0 (repeat d (S n)) = (mkf NU 0 false 4 false false, down (S n)).
Proof.
  induction n as [|n IH].
  - unfold states. cbn [repeat fold_left]. rewrite Hd. reflexivity.
  - replace (repeat d (S (S n))) with (repeat d (S n) ++ [d]) by (rewrite <- repeat_cons; reflexivity).
    rewrite states_app, IH. unfold states. cbn [fold_left]. rewrite Hd. unfold lnext. cbn [fst snd].
    rewrite <- (down_up (S n)). reflexivity.
Qed.
Lemma down_len n : length (down n) = n.
Proof. induction n; cbn [down length]; auto. Qed.
Lemma digits_told n r : cls r = NU -> ltold table comb (after step (Some NewLineWrap) (repeat d (S n))) r = Some (n + 8)%nat.
Proof.
  intros Hr. destruct (lb_after (repeat d (S n)) NewLineWrap st0 st0_ok new_state) as (b' & I' & ->).
  rewrite (lb_told b' _ r (states_ok _ _ st0_ok) I'), digits, Hr. cbn [fst snd]. rewrite down_len. f_equal.
  change (length (fixed _)) with 3%nat. change (length (news _ _)) with 4%nat. lia.
Qed.

Lemma digits_work n : exists w, work (ltold table comb) step (Some NewLineWrap) (repeat d (S n)) = Some w /\ (2 * w = n * n + 15 * n + 8)%nat.
Proof.
  induction n as [|n (w & E & W)].
  - exists 4%nat. split; [|reflexivity]. cbn [repeat work].
    rewrite (lb_told NewLineWrap st0 d st0_ok new_state), Hd. reflexivity.
  - replace (repeat d (S (S n))) with (repeat d (S n) ++ [d]) by (rewrite <- repeat_cons; reflexivity).
    rewrite work_app, E. cbn [obind work]. rewrite (digits_told n d Hd). cbn [obind]. eexists. split; [reflexivity|]. nia.
Qed.

(* n digits and a letter: a penalty that grows *)
Lemma nums_down last sub n : sum_at (map snd (map (lev last sub AL) (nums 4 (down (S n))))) 2 = 4 * Z.of_nat n.
Proof.
  assert (H : forall m k, sum_at (map snd (map (lev last sub AL) (nums 4 (m :: down k)))) 2 =
     nth 2 (snd (lev last sub AL (rc1 m (num_label 4)))) 0 + sum_at (map snd (map (lev last sub AL) (nums 4 (down k)))) 2) by reflexivity.
  induction n as [|n IH]; [reflexivity|]. change (down (S (S n))) with (Z.of_nat (S (S n)) :: down (S n)). rewrite H, IH, lev_num; [|now apply in_dec|cbn; auto|lia].
  change (moves 4 AL) with false. cbn [snd]. unfold numpens. change (one_of 4 [4; 5]) with true. cbv iota. unfold ps.
  replace (Z.to_nat (Z.of_nat (S (S n)) - 1)) with (S n) by lia. change (p 25) with 4. cbn [nth repeat]. lia.
Qed.
Lemma digits_pens n : nth 2 (lpens (states st0 (repeat d (S n))) AL) 0 = if 4 * Z.of_nat n >? DefaultPenalty then 4 * Z.of_nat n + noBreak else 4 * Z.of_nat n.
Proof.
  rewrite digits. unfold lpens.
  assert (L : forall l, nth 2 (map lift1 l) 0 = lift1 (nth 2 l 0)) by (intros l; change 0 with (lift1 0) at 1; apply map_nth).
  assert (Q : forall i l, nth 2 (patch i l) 0 = nth 2 l 0).
  { intros i [|a [|b0 t]]; [reflexivity|reflexivity|]. unfold patch, setPenalty1. destruct (b0 =? 0); reflexivity. }
  rewrite L, Q. unfold all_pens, bag. rewrite <- app_assoc, !map_app, !sum_pens_app. cbn [fst snd].
  replace (nth 2 (sum_pens (map snd (map (lev (fa (mkf NU 0 false 4 false false)) (fsub (mkf NU 0 false 4 false false) AL) (fcl (mkf NU 0 false 4 false false) AL))
    (nums (fph (mkf NU 0 false 4 false false)) (down (S n)))))) 0) with (4 * Z.of_nat n).
  - change (nth 2 (sum_pens (map snd (map (lev (fa (mkf NU 0 false 4 false false)) (fsub (mkf NU 0 false 4 false false) AL) (fcl (mkf NU 0 false 4 false false) AL)) (fixed (mkf NU 0 false 4 false false))))) 0) with 0.
    change (nth 2 (sum_pens (map snd (map (lev (fa (mkf NU 0 false 4 false false)) (fsub (mkf NU 0 false 4 false false) AL) (fcl (mkf NU 0 false 4 false false) AL)) (news (mkf NU 0 false 4 false false) (fcl (mkf NU 0 false 4 false false) AL)))) ) 0) with 0.
    rewrite Z.add_0_l, Z.add_0_r. reflexivity.
  - unfold sum_pens. rewrite (proj1 (fold_pens _ [])). symmetry. change (nth 2 (@nil Z) 0) with 0. rewrite Z.add_0_l. apply nums_down.
Qed.
Lemma digits_step n r : cls r = AL -> nth 2 (snd (step (after step (Some NewLineWrap) (repeat d (S n))) r)) 0 =
  if 4 * Z.of_nat n >? DefaultPenalty then 4 * Z.of_nat n + noBreak else 4 * Z.of_nat n.
Proof.
  intros Hr. destruct (lb_after (repeat d (S n)) NewLineWrap st0 st0_ok new_state) as (b' & I' & ->).
  destruct (lb_round table comb b' _ r (states_ok _ _ st0_ok) I') as (b2 & -> & _). cbn [snd]. rewrite Hr. apply digits_pens.
Qed.
End Lines.
