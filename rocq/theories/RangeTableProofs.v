(* RangeTableProofs.v -- the search in a range table, and the tables that the collector prints. *)
From Coq Require Import List ZArith Lia Bool.
From Verif Require Import Base Ucd UcdProofs RangeTable.
Import ListNotations.
Open Scope Z_scope.

(* ---- Specification: the contract of unicode.RangeTable ---- *)
(* ranges in ascending order, not overlapping, above k *)
Fixpoint ordered (k : Z) (rs : list entry) : Prop :=
  match rs with [] => True | (l, h, s) :: t => k < l /\ l <= h /\ 1 <= s /\ ordered h t end.
Definition below (m : Z) (rs : list entry) : Prop := Forall (fun e => snd (fst e) <= m) rs.
Record legal (t : rtable) : Prop := mklegal {
  l_16 : ordered (-1) (R16 t); l_16max : below 65535 (R16 t);
  l_32 : ordered 65535 (R32 t); l_32max : below (2 ^ 31 - 1) (R32 t) }.
(* a code point in a range with a stride *)
Definition hits (r : Z) (e : entry) : bool := let '(l, h, s) := e in (l <=? r) && (r <=? h) && ((r - l) mod s =? 0).
Definition contains (t : rtable) (r : Z) : bool := existsb (hits r) (R16 t ++ R32 t).

(* ---- the search ---- *)
Lemma stride_ok r l h s : l <= r <= h -> stride_hit r (l, h, s) = hits r (l, h, s).
Proof.
  intros R. cbn. replace (l <=? r) with true by lia. replace (r <=? h) with true by lia. cbn [andb]. destruct (Z.eqb_spec s 1) as [->|]; [|reflexivity]. now rewrite Z.mod_1_r.
Qed.
Lemma misses_below rs : forall k r, ordered k rs -> r <= k -> existsb (hits r) rs = false.
Proof.
  induction rs as [|[[l h] s] t IH]; intros k r O R; cbn [existsb]; [reflexivity|]. destruct O as (O1 & O2 & O3 & O4). rewrite (IH h r O4) by lia. cbn. replace (l <=? r) with false by lia. reflexivity.
Qed.
Lemma ordered_weaken rs k j : j <= k -> ordered k rs -> ordered j rs.
Proof. destruct rs as [|[[l h] s] t]; cbn; [auto|]. intuition lia. Qed.
Lemma linear_ok rs : forall k r, ordered k rs -> linear rs r = existsb (hits r) rs.
Proof.
  induction rs as [|[[l h] s] t IH]; intros k r O; cbn [linear existsb]; [reflexivity|]. destruct O as (O1 & O2 & O3 & O4). destruct (Z.ltb_spec r l).
  - rewrite (misses_below t h r O4) by lia. cbn. replace (l <=? r) with false by lia. reflexivity.
  - destruct (Z.leb_spec r h).
    + rewrite (misses_below t h r O4), orb_false_r by lia. apply stride_ok. lia.
    + rewrite (IH h r O4). cbn. replace (r <=? h) with false by lia. now rewrite andb_false_r.
Qed.

Lemma zget_app_mid {A} (a b : list A) x i : i = zlen a -> zget (a ++ x :: b) i = Some x.
Proof. intros ->. rewrite zget_app. rewrite Z.ltb_irrefl, Z.sub_diag. reflexivity. Qed.
Lemma split_at {A} (l : list A) i : 0 <= i < zlen l -> exists a x b, l = a ++ x :: b /\ zlen a = i.
Proof.
  intros R. destruct (zget l i) as [x|] eqn:E; [|apply zget_Some_iff in R; destruct R; congruence]. unfold zget in E. replace ((0 <=? i) && (i <? zlen l)) with true in E by lia.
  apply nth_error_split in E. destruct E as (a & b & -> & L). exists a, x, b. split; [reflexivity|]. unfold zlen. lia.
Qed.
Lemma ordered_app a b k : ordered k (a ++ b) -> ordered k a /\ exists j, k <= j /\ ordered j b /\ below j a.
Proof.
  revert k. induction a as [|[[l h] s] t IH]; intros k O; cbn [app ordered] in *; [split; [auto|]; exists k; split; [lia|]; split; [exact O|constructor]|].
  destruct O as (O1 & O2 & O3 & O4). destruct (IH h O4) as [I1 (j & I2 & I3 & I4)]. split; [auto|]. exists j. split; [lia|]. split; [exact I3|]. constructor; [cbn; lia|exact I4].
Qed.
Lemma above_last a r : below (r - 1) a -> existsb (hits r) a = false.
Proof.
  induction a as [|[[l h] s] t IH]; intros B; cbn [existsb]; [reflexivity|]. inversion B; subst. rewrite IH by assumption. cbn [fst snd] in *. cbn. replace (r <=? h) with false by lia. now rewrite andb_false_r.
Qed.
Lemma below_weaken a m n : m <= n -> below m a -> below n a.
Proof. intros L. apply Forall_impl. intros e. lia. Qed.

(* only the part a ++ b ++ c with |a| = lo and |a ++ b| = hi is searched, as nothing in a and c can hit *)
Lemma bsearch_ok rs k r : ordered k rs -> forall fuel a b c, rs = a ++ b ++ c -> below (r - 1) a -> (forall l h s t, c = (l, h, s) :: t -> r < l) -> (length b < fuel)%nat ->
  bsearch fuel rs r (zlen a) (zlen a + zlen b) = Ok (existsb (hits r) rs).
Proof.
  intros O. induction fuel as [|fuel IH]; intros a b c E B1 B2 F; [lia|]. cbn [bsearch].
  assert (C0 : existsb (hits r) c = false).
  { rewrite E in O. apply ordered_app in O. destruct O as [_ (j & _ & O & _)]. apply ordered_app in O. destruct O as [_ (j' & _ & O & _)]. destruct c as [|[[l h] s] t]; [reflexivity|].
    specialize (B2 l h s t eq_refl). destruct O as (O1 & O2 & O3 & O4). cbn [existsb]. rewrite (misses_below t h r O4) by lia. cbn. now replace (l <=? r) with false by lia. }
  pose proof (above_last a r B1) as A0. destruct (Z.ltb_spec (zlen a) (zlen a + zlen b)) as [L|L].
  - set (m := (zlen a + (zlen a + zlen b)) / 2). assert (M : zlen a <= m < zlen a + zlen b) by (unfold m; pose proof (Z.div_mod (zlen a + (zlen a + zlen b)) 2); pose proof (Z.mod_pos_bound (zlen a + (zlen a + zlen b)) 2); lia).
    cbv zeta. destruct (split_at b (m - zlen a)) as (b1 & [[l h] s] & b2 & -> & LB); [lia|]. clearbody m.
    assert (G : zget rs m = Some (l, h, s)). { rewrite E. rewrite <- app_assoc. rewrite app_assoc. cbn [app]. apply zget_app_mid. rewrite zlen_app. lia. }
    rewrite G. cbn [lift rbind]. rewrite zlen_app, zlen_cons in *. rewrite app_length in F. cbn [length] in F.
    assert (O' := O). rewrite E, <- app_assoc, app_assoc in O'. cbn [app] in O'. apply ordered_app in O'. destruct O' as [_ (j & J1 & (J2 & J3 & J4 & J5) & J6)].
    destruct (Z.leb_spec l r); [destruct (Z.leb_spec r h)|]; cbn [andb].
    + f_equal. rewrite E, <- app_assoc, app_assoc. cbn [app]. rewrite existsb_app. cbn [existsb]. rewrite (misses_below (b2 ++ c) h r J5) by lia.
      rewrite (above_last (a ++ b1) r) by (eapply below_weaken; [|exact J6]; lia). cbn [orb]. rewrite orb_false_r. apply stride_ok. lia.
    + replace (r <? l) with false by lia. specialize (IH (a ++ b1 ++ [(l, h, s)]) b2 c).
      assert (ZL : zlen (a ++ b1 ++ [(l, h, s)]) = m + 1) by (unfold zlen in *; rewrite !app_length; cbn [length]; lia). rewrite ZL in IH.
      replace (zlen a + (zlen b1 + (zlen b2 + 1))) with (m + 1 + zlen b2) by lia. apply IH.
      * rewrite E. now rewrite <- !app_assoc.
      * rewrite app_assoc. apply Forall_app. split; [eapply below_weaken; [|exact J6]; lia|]. constructor; [cbn; lia|constructor].
      * exact B2.
      * lia.
    + replace (r <? l) with true by lia. specialize (IH a b1 ((l, h, s) :: b2 ++ c)). replace m with (zlen a + zlen b1) by lia. apply IH.
      * rewrite E. now rewrite <- !app_assoc.
      * exact B1.
      * intros l' h' s' t EQ. injection EQ as <- <- <- _. lia.
      * lia.
  - assert (b = []) by (destruct b; [reflexivity|rewrite zlen_cons in L; pose proof (zlen_nonneg b); lia]). subst b. rewrite E. cbn [app]. rewrite existsb_app, A0, C0. reflexivity.
Qed.
Lemma bsearch_all rs k r : ordered k rs -> bsearch (S (length rs)) rs r 0 (zlen rs) = Ok (existsb (hits r) rs).
Proof.
  intros O. change 0 with (zlen (@nil entry)). replace (zlen rs) with (zlen (@nil entry) + zlen rs) by reflexivity. apply (bsearch_ok rs k r O _ [] rs []).
  - cbn. now rewrite app_nil_r.
  - constructor.
  - discriminate.
  - lia.
Qed.
Lemma is16_ok rs k r : ordered k rs -> is16 rs r = Ok (existsb (hits r) rs).
Proof. intros O. unfold is16. destruct (_ || _); [f_equal; now apply (linear_ok rs k)|now apply (bsearch_all rs k)]. Qed.
Lemma is32_ok rs k r : ordered k rs -> is32 rs r = Ok (existsb (hits r) rs).
Proof. intros O. unfold is32. destruct (_ <=? _); [f_equal; now apply (linear_ok rs k)|now apply (bsearch_all rs k)]. Qed.

Lemma last_hi_spec rs k : ordered k rs -> rs <> [] -> below (last_hi rs) rs /\ forall m, below m rs -> last_hi rs <= m.
Proof.
  intros O NE. destruct (exists_last NE) as (a & [[l h] s] & ->). unfold last_hi. rewrite rev_app_distr. cbn [rev app]. apply ordered_app in O. destruct O as [_ (j & _ & (J1 & J2 & _) & J4)]. split.
  - apply Forall_app. split; [eapply below_weaken; [|exact J4]; lia|]. constructor; [cbn; lia|constructor].
  - intros m B. apply Forall_app in B. destruct B as [_ B]. inversion B; subst. cbn in *. lia.
Qed.
Lemma from32_ok t r : legal t -> - 2 ^ 31 <= r < 2 ^ 31 -> from32 t r = Ok (existsb (hits r) (R32 t)).
Proof.
  intros L R. unfold from32. destruct (R32 t) as [|[[l h] s] rs] eqn:E; [reflexivity|]. rewrite zlen_cons. pose proof (zlen_nonneg rs). replace (0 <? zlen rs + 1) with true by lia. cbn [first_lo andb].
  pose proof (l_32 t L) as O. rewrite E in O. destruct (Z.leb_spec l r).
  - destruct O as (O1 & O2). unfold u32. rewrite Z.mod_small by lia. apply (is32_ok _ 65535). split; assumption.
  - f_equal. symmetry. apply (misses_below _ (l - 1)); [|lia]. cbn in *. intuition lia.
Qed.
Lemma Is_ok t r : legal t -> - 2 ^ 31 <= r < 2 ^ 31 -> Is t r = Ok (contains t r).
Proof.
  intros L R. unfold Is, contains. rewrite existsb_app. destruct (R16 t) as [|e rs] eqn:E.
  - cbn [existsb orb]. change (0 <? zlen (@nil entry)) with false. cbn [andb]. now apply from32_ok.
  - rewrite <- E. pose proof (l_16 t L) as O. pose proof (l_16max t L) as B. destruct (last_hi_spec (R16 t) (-1) O) as [H1 H2]; [congruence|]. specialize (H2 _ B).
    replace (0 <? zlen (R16 t)) with true by (rewrite E, zlen_cons; pose proof (zlen_nonneg rs); lia). cbn [andb]. unfold u32. destruct (Z.leb_spec (r mod 2 ^ 32) (last_hi (R16 t))) as [LE|GT].
    + assert (RR : 0 <= r <= 65535). { destruct (Z.leb_spec 0 r); [rewrite Z.mod_small in LE by lia; lia|]. assert (r mod 2 ^ 32 = r + 2 ^ 32) by (symmetry; apply (Z.mod_unique r (2 ^ 32) (-1)); lia). lia. }
      unfold u16. rewrite Z.mod_small by lia. rewrite (is16_ok _ (-1) r O). f_equal. rewrite (misses_below (R32 t) 65535 r (l_32 t L)) by lia. now rewrite orb_false_r.
    + rewrite (from32_ok t r L R). f_equal. assert (N : existsb (hits r) (R16 t) = false); [|now rewrite N].
      destruct (Z.leb_spec 0 r); [|apply (misses_below _ (-1)); [exact O|lia]]. rewrite Z.mod_small in GT by lia. apply above_last. eapply below_weaken; [|exact H1]. lia.
Qed.
(* Skipping entries for Latin-1 does no harm for other code points. *)
Lemma isExcludingLatin_ok t r : legal t -> 255 < r < 2 ^ 31 -> 0 <= LatinOffset t <= zlen (R16 t) -> below 255 (firstn (Z.to_nat (LatinOffset t)) (R16 t)) ->
  isExcludingLatin t r = Ok (contains t r).
Proof.
  intros L R OFF B. unfold isExcludingLatin, contains. rewrite existsb_app. rewrite <- (firstn_skipn (Z.to_nat (LatinOffset t)) (R16 t)) at 4. rewrite existsb_app.
  rewrite (above_last (firstn _ _) r) by (eapply below_weaken; [|exact B]; lia). cbn [orb]. pose proof (l_16 t L) as O. assert (O' := O). rewrite <- (firstn_skipn (Z.to_nat (LatinOffset t)) (R16 t)) in O'.
  apply ordered_app in O'. destruct O' as [_ (j & _ & O' & _)]. destruct (Z.ltb_spec (LatinOffset t) (zlen (R16 t))) as [LT|GE]; cbn [andb].
  - assert (NE : R16 t <> []) by (intros X; rewrite X in LT; change (zlen (@nil entry)) with 0 in LT; lia).
    destruct (last_hi_spec (R16 t) (-1) O NE) as [H1 H2]. specialize (H2 _ (l_16max t L)). unfold u32. rewrite Z.mod_small by lia. destruct (Z.leb_spec r (last_hi (R16 t))).
    + unfold u16. rewrite Z.mod_small by lia. rewrite (is16_ok _ j r O'). f_equal. rewrite (misses_below (R32 t) 65535 r (l_32 t L)) by lia. now rewrite orb_false_r.
    + rewrite from32_ok by (auto; lia). f_equal. rewrite (above_last (skipn (Z.to_nat (LatinOffset t)) (R16 t)) r); [reflexivity|]. eapply below_weaken; [|rewrite <- (firstn_skipn (Z.to_nat (LatinOffset t)) (R16 t)) in H1 at 2; apply Forall_app in H1; apply H1]. lia.
  - rewrite from32_ok by (auto; lia). f_equal. rewrite skipn_all2 by (unfold zlen in GE; lia). reflexivity.
Qed.

(* ---- the tables printed ---- *)
(* no range of the data touches U+10000, where the collector is late to switch *)
Definition off_10000 (rs : list (Z * Z)) : Prop := Forall (fun x => snd x < 65536 \/ 65536 < fst x) rs.
(* the collector in the middle of the data *)
Definition latin_ct (rs : list (Z * Z)) : Z := zlen (filter (fun x => snd x <=? 255) rs).
Definition small_ct (rs : list (Z * Z)) : Z := zlen (filter (fun x => snd x <? 65536) rs).
Fixpoint chained (k : Z) (rs : list (Z * Z)) : Prop := match rs with [] => True | (l, r) :: t => k < l /\ l <= r /\ chained (r + 1) t end.
Record going (rt : collector) : Prop := mkgoing {
  g_sorted : chained (-1) (ranges rt ++ [(lo rt, hi rt)]); g_off : off_10000 (ranges rt ++ [(lo rt, hi rt)]);
  g_cnt : cnt rt = zlen (ranges rt); g_first : ranges rt = [] -> hi rt <= 255; g_first' : forall x t, ranges rt = x :: t -> snd x <= 255;
  g_latin : latinOffset rt = (if forallb (fun x => snd x <=? 255) (ranges rt) then 0 else latin_ct (ranges rt));
  g_switch : switch32 rt = (if forallb (fun x => snd x <? 65536) (ranges rt) then 0 else small_ct (ranges rt)) }.
Lemma chained_app a b k : chained k (a ++ b) <-> chained k a /\ chained (match rev a with [] => k | (_, r) :: _ => r + 1 end) b.
Proof.
  revert k. induction a as [|[l r] t IH]; intros k; [cbn [app chained rev]; tauto|]. cbn [app chained rev]. rewrite IH. rewrite <- !and_assoc.
  destruct (rev t) as [|[l' r'] u]; cbn [app]; tauto.
Qed.
Lemma chained_below a k b : chained k (a ++ [b]) -> Forall (fun x => snd x < fst b) a.
Proof.
  revert k. induction a as [|[l r] t IH]; intros k C; [constructor|]. cbn [app chained] in C. destruct C as (C1 & C2 & C3). specialize (IH _ C3). constructor; [|exact IH]. cbn [snd].
  destruct t as [|[l' r'] t]; cbn [app chained] in C3; [destruct b; cbn [fst]; lia|]. inversion IH; subst. cbn [snd] in *. lia.
Qed.
Lemma chained_fits a k : chained k a -> Forall (fun x => fst x <= snd x) a.
Proof. revert k. induction a as [|[l r] t IH]; intros k C; constructor; cbn [chained] in C; [cbn; lia|]. eapply IH; apply C. Qed.
Lemma count_all {A} (f : A -> bool) l : forallb f l = true -> zlen (filter f l) = zlen l.
Proof. induction l as [|x t IH]; cbn [forallb filter]; [reflexivity|]. intros H. apply andb_true_iff in H. destruct H as [-> H]. now rewrite !zlen_cons, IH. Qed.
Lemma step_going rt l r : going rt -> hi rt < l -> l <= r -> (r < 65536 \/ 65536 < l) -> (ranges rt = [] -> hi rt + 1 < l) -> going (Append rt l r).
Proof.
  intros G H1 H2 H3 H0. unfold Append. destruct (Z.eqb_spec l (hi rt + 1)) as [->|NE].
  - destruct G as [GS GO GC GF GF' GL GW]. apply chained_app in GS. destruct GS as [GS1 GS2]. apply Forall_app in GO. destruct GO as [GO1 GO2]. inversion GO2; subst. cbn [fst snd] in *.
    constructor; cbn [ranges lo hi cnt latinOffset switch32]; auto.
    + apply chained_app. split; [exact GS1|]. cbn [chained] in *. lia.
    + apply Forall_app. split; [exact GO1|]. constructor; [cbn; lia|constructor].
    + intros X. specialize (H0 X). lia.
  - destruct G as [GS GO GC GF GF' GL GW]. pose proof (chained_below _ _ _ GS) as CB. cbn [fst] in CB. assert (FIT : lo rt <= hi rt).
    { apply chained_app in GS. destruct GS as [_ GS]. cbn [chained] in GS. lia. }
    assert (O2 : hi rt < 65536 \/ 65536 < lo rt). { apply Forall_app in GO. destruct GO as [_ GO]. inversion GO; subst. cbn in *. lia. }
    constructor; cbn [ranges lo hi cnt latinOffset switch32].
    + apply chained_app. split; [exact GS|]. rewrite rev_app_distr. cbn [rev app chained]. lia.
    + apply Forall_app. split; [exact GO|]. constructor; [cbn; lia|constructor].
    + rewrite zlen_app, zlen_cons. change (zlen (@nil (Z * Z))) with 0. lia.
    + intros X. destruct (ranges rt); discriminate.
    + intros x t E. destruct (ranges rt) as [|y u] eqn:ER; cbn [app] in E; injection E as <- _; [cbn; apply GF; reflexivity|now apply (GF' y u)].
    + rewrite GL, forallb_app. unfold latin_ct. rewrite filter_app. cbn [forallb filter snd]. rewrite andb_true_r.
      replace (hi rt >? MaxLatin1) with (negb (hi rt <=? 255)) by (unfold MaxLatin1; lia). destruct (forallb (fun x => snd x <=? 255) (ranges rt)) eqn:EF; cbn [andb].
      * destruct (hi rt <=? 255) eqn:EH; cbn [negb andb]; [reflexivity|]. rewrite app_nil_r. rewrite count_all by exact EF. exact GC.
      * assert (NZ : zlen (filter (fun x => snd x <=? 255) (ranges rt)) <> 0).
        { destruct (ranges rt) as [|y u] eqn:ER; [discriminate|]. cbn [filter]. specialize (GF' y u eq_refl). replace (snd y <=? 255) with true by lia. rewrite zlen_cons. pose proof (zlen_nonneg (filter (fun x => snd x <=? 255) u)). lia. }
        replace (zlen (filter (fun x => snd x <=? 255) (ranges rt)) =? 0) with false by lia. cbn [andb].
        assert (BIG : 255 < hi rt). { destruct (Z.ltb_spec 255 (hi rt)); [assumption|]. exfalso. assert (forallb (fun x => snd x <=? 255) (ranges rt) = true); [|congruence]. apply forallb_forall. intros x X. rewrite Forall_forall in CB. specialize (CB x X). lia. }
        replace (hi rt <=? 255) with false by lia. now rewrite app_nil_r.
    + rewrite GW, forallb_app. unfold small_ct. rewrite filter_app. cbn [forallb filter snd]. rewrite andb_true_r.
      replace ((lo rt >? 65536) || (hi rt >? 65536)) with (negb (hi rt <? 65536)) by lia. destruct (forallb (fun x => snd x <? 65536) (ranges rt)) eqn:EF; cbn [andb].
      * destruct (hi rt <? 65536) eqn:EH; cbn [negb andb]; [reflexivity|]. rewrite app_nil_r. rewrite count_all by exact EF. exact GC.
      * assert (NZ : zlen (filter (fun x => snd x <? 65536) (ranges rt)) <> 0).
        { destruct (ranges rt) as [|y u] eqn:ER; [discriminate|]. cbn [filter]. specialize (GF' y u eq_refl). replace (snd y <? 65536) with true by lia. rewrite zlen_cons. pose proof (zlen_nonneg (filter (fun x => snd x <? 65536) u)). lia. }
        replace (zlen (filter (fun x => snd x <? 65536) (ranges rt)) =? 0) with false by lia. cbn [andb].
        assert (BIG : 65536 <= hi rt). { destruct (Z.leb_spec 65536 (hi rt)); [assumption|]. exfalso. assert (forallb (fun x => snd x <? 65536) (ranges rt) = true); [|congruence]. apply forallb_forall. intros x X. rewrite Forall_forall in CB. specialize (CB x X). lia. }
        replace (hi rt <? 65536) with false by lia. now rewrite app_nil_r.
Qed.
Lemma Append_hi rt l r : hi (Append rt l r) = r.
Proof. unfold Append. now destruct (l =? hi rt + 1). Qed.
Lemma Append_ranges rt l r : ranges rt <> [] -> ranges (Append rt l r) <> [].
Proof. unfold Append. intros N. destruct (l =? hi rt + 1); cbn [ranges]; [exact N|]. destruct (ranges rt); discriminate. Qed.
Lemma collect_going rs : sorted_from 1 rs -> off_10000 rs -> going (collect rs).
Proof.
  intros S O. unfold collect. assert (G0 : going new_collector).
  { constructor; cbn; try reflexivity; try lia; try discriminate. constructor; [cbn; lia|constructor]. }
  destruct rs as [|[l r] t]; [exact G0|]. destruct S as (S1 & S2 & S3). inversion O as [|? ? O1 O2]; subst. cbn [fold_left fst snd] in *.
  assert (G1 : going (Append new_collector l r)) by (apply step_going; auto; cbn; lia).
  assert (N1 : ranges (Append new_collector l r) <> []). { unfold Append. cbn. destruct (Z.eqb_spec l 1); [lia|discriminate]. }
  assert (H1 : hi (Append new_collector l r) = r) by apply Append_hi. revert G1 N1 H1. generalize (Append new_collector l r). clear G0 S1 S2 O O1 l.
  revert r S3. induction t as [|[l r'] t IH]; intros r S3 rt G N H; cbn [fold_left]; [exact G|]. destruct S3 as (S1 & S2 & S3). inversion O2 as [|? ? O1 O3]; subst. cbn [fst snd] in *.
  apply (IH O3 r'); auto; [|now apply Append_ranges|apply Append_hi]. apply step_going; auto; try lia. congruence.
Qed.

Lemma ordered_chained rs k : chained k rs -> ordered k (map with_stride rs).
Proof.
  revert k. induction rs as [|[l r] t IH]; intros k C; cbn [map ordered with_stride fst snd]; [auto|]. cbn [chained] in C. destruct C as (C1 & C2 & C3). do 3 (split; [lia|]). eapply ordered_weaken; [|apply IH; exact C3]. lia.
Qed.
Lemma filter_prefix (f : Z * Z -> bool) rs : (forall a x b y c, rs = a ++ x :: b ++ y :: c -> f y = true -> f x = true) -> firstn (Z.to_nat (zlen (filter f rs))) rs = filter f rs.
Proof.
  induction rs as [|x t IH]; intros M; [reflexivity|]. cbn [filter]. destruct (f x) eqn:E.
  - rewrite zlen_cons. replace (Z.to_nat (zlen (filter f t) + 1)) with (S (Z.to_nat (zlen (filter f t)))) by (pose proof (zlen_nonneg (filter f t)); lia). cbn [firstn]. f_equal. apply IH.
    intros a y b z c EQ FZ. apply (M (x :: a) y b z c); [now rewrite EQ|exact FZ].
  - assert (Z0 : filter f t = []); [|now rewrite Z0]. destruct (filter f t) as [|y u] eqn:EF; [reflexivity|]. exfalso. assert (Y : In y (filter f t)) by (rewrite EF; left; reflexivity). apply filter_In in Y. destruct Y as [Y FY].
    apply in_split in Y. destruct Y as (a & b & ->). specialize (M [] x a y b eq_refl FY). congruence.
Qed.
Lemma chained_mono rs k m : chained k rs -> forall a x b y c, rs = a ++ x :: b ++ y :: c -> snd y <= m -> snd x <= m.
Proof.
  intros C a x b y c -> LE. assert (C' : chained k ((a ++ x :: b) ++ [y])). { replace (a ++ x :: b ++ y :: c) with (((a ++ x :: b) ++ [y]) ++ c) in C by (rewrite <- !app_assoc; cbn [app]; reflexivity). now apply chained_app in C. }
  pose proof (chained_below _ _ _ C') as B. rewrite Forall_forall in B. specialize (B x ltac:(apply in_or_app; right; left; reflexivity)). pose proof (chained_fits _ _ C') as F. rewrite Forall_forall in F. specialize (F y ltac:(apply in_or_app; right; left; reflexivity)). lia.
Qed.
Lemma existsb_forallb {A} (f : A -> bool) l : forallb f l = false -> exists x, In x l /\ f x = false.
Proof. induction l as [|x t IH]; cbn [forallb]; [discriminate|]. destruct (f x) eqn:E; cbn [andb]; [intros H; destruct (IH H) as (y & Y & F)|intros _]; [exists y|exists x]; cbn; auto. Qed.

(* The printed table is legal, contains what the collector has collected, and its LatinOffset is right if it is printed. *)
Lemma table_legal rs : sorted_from 1 rs -> off_10000 rs -> (forall x, In x rs -> snd x < 2 ^ 31) ->
  let t := table_of (collect rs) in legal t /\ LatinOffset t = (if forallb (fun x => snd x <=? 255) (ranges (collect rs)) then 0 else zlen (filter (fun e => snd (fst e) <=? 255) (R16 t))).
Proof.
  intros S O MX. pose proof (collect_going rs S O) as G. pose proof (output_ranges (collect rs)) as RG.
  assert (SW : exists a b, Output (collect rs) = (a, b, latinOffset (collect rs)) /\ a = filter (fun x => snd x <? 65536) (ranges (collect rs)) /\ Forall (fun x => 65536 < fst x) b).
  { destruct G as [GS GO GC GF GF' GL GW]. apply chained_app in GS. destruct GS as [GS _]. apply Forall_app in GO. destruct GO as [GO _]. set (R := ranges (collect rs)) in *.
    assert (PRE : firstn (Z.to_nat (zlen (filter (fun x : Z * Z => snd x <? 65536) R))) R = filter (fun x => snd x <? 65536) R).
    { apply filter_prefix. intros a x b y c E F. assert (snd y <= 65535) by lia. pose proof (chained_mono R (-1) 65535 GS a x b y c E H). lia. }
    unfold Output. fold R. rewrite GW. destruct (forallb (fun x => snd x <? 65536) R) eqn:EF.
    - exists R, []. split; [reflexivity|]. split; [|constructor]. clear - EF. induction R as [|x t IH]; [reflexivity|]. cbn [forallb filter] in *. apply andb_true_iff in EF. destruct EF as [-> EF]. now rewrite <- IH.
    - assert (P : 0 < small_ct R). { unfold small_ct. destruct R as [|x t] eqn:ER; [discriminate|]. cbn [filter]. specialize (GF' x t eq_refl). replace (snd x <? 65536) with true by lia. rewrite zlen_cons. pose proof (zlen_nonneg (filter (fun x => snd x <? 65536) t)). lia. }
      replace (small_ct R >? 0) with true by lia. unfold small_ct. rewrite PRE. do 2 eexists. split; [reflexivity|]. split; [reflexivity|].
      apply Forall_forall. intros x X. assert (IR : In x R). { rewrite <- (firstn_skipn (Z.to_nat (zlen (filter (fun x => snd x <? 65536) R))) R). apply in_or_app. auto. }
      rewrite Forall_forall in GO. destruct (GO x IR) as [LT|]; [|assumption]. exfalso.
      (* x would be filtered, twice in the list *)
      apply in_split in X. destruct X as (u & v & E). assert (ER : R = filter (fun x => snd x <? 65536) R ++ u ++ x :: v) by (pose proof (firstn_skipn (Z.to_nat (zlen (filter (fun x => snd x <? 65536) R))) R) as FS; rewrite PRE, E in FS; symmetry; exact FS).
      assert (LE : zlen (filter (fun x => snd x <? 65536) R) = zlen (filter (fun x => snd x <? 65536) (filter (fun x => snd x <? 65536) R)) + zlen (filter (fun x => snd x <? 65536) (u ++ x :: v))) by (rewrite ER at 1; rewrite filter_app, zlen_app; reflexivity).
      rewrite (count_all _ (filter (fun x => snd x <? 65536) R)) in LE by (apply forallb_forall; intros y Y; apply filter_In in Y; tauto).
      rewrite filter_app, zlen_app in LE. cbn [filter] in LE. replace (snd x <? 65536) with true in LE by lia. rewrite zlen_cons in LE. pose proof (zlen_nonneg (filter (fun x => snd x <? 65536) u)). pose proof (zlen_nonneg (filter (fun x => snd x <? 65536) v)). lia. }
  destruct SW as (a & b & E & EA & FB). rewrite E in RG. cbv zeta. unfold table_of. rewrite E. cbn [LatinOffset R16 R32].
  destruct G as [GS GO GC GF GF' GL GW]. apply chained_app in GS. destruct GS as [GS _]. assert (GS' := GS). rewrite <- RG in GS'. apply chained_app in GS'. destruct GS' as [GA GB].
  assert (RB : forall x, In x (ranges (collect rs)) -> snd x < 2 ^ 31).
  { intros x X. destruct (Z.ltb_spec (snd x) (2 ^ 31)); [assumption|]. exfalso. assert (ME : member (snd x) (ranges (collect rs))).
    { apply Exists_exists. exists x. split; [exact X|]. unfold within. pose proof (chained_fits _ _ GS) as F. rewrite Forall_forall in F. specialize (F x X). lia. }
    apply collect_spec in ME; [|destruct rs as [|[? ?] ?]; cbn in *; intuition lia]. destruct ME as [[[ME|ME] _]|[ME _]]; [lia| |lia]. apply Exists_exists in ME. destruct ME as (y & Y & W). unfold within in W. specialize (MX y Y). lia. }
  split.
  - constructor; cbn [R16 R32].
    + apply ordered_chained. exact GA.
    + subst a. apply Forall_forall. intros e X. apply in_map_iff in X. destruct X as (x & <- & X). apply filter_In in X. cbn. lia.
    + destruct b as [|[l h] b]; [cbn; auto|]. inversion FB; subst. cbn [fst] in *. apply ordered_chained. cbn [chained] in *. split; [lia|]. tauto.
    + apply Forall_forall. intros e X. apply in_map_iff in X. destruct X as (x & <- & X). cbn. specialize (RB x). rewrite <- RG in RB. specialize (RB ltac:(apply in_or_app; auto)). lia.
  - rewrite GL. destruct (forallb _ _); [reflexivity|]. unfold latin_ct. rewrite <- RG, filter_app.
    assert (B0 : filter (fun x : Z * Z => snd x <=? 255) b = []). { destruct (filter (fun x : Z * Z => snd x <=? 255) b) as [|y u] eqn:EF; [reflexivity|]. exfalso. assert (Y : In y (filter (fun x : Z * Z => snd x <=? 255) b)) by (rewrite EF; left; reflexivity). apply filter_In in Y.
      destruct Y as [Y YL]. rewrite Forall_forall in FB. specialize (FB y Y). pose proof (chained_fits _ _ GB) as F. rewrite Forall_forall in F. specialize (F y Y). lia. }
    rewrite B0, app_nil_r. unfold zlen. f_equal. clear. induction a as [|x t IH]; [reflexivity|]. cbn [filter map with_stride fst snd]. destruct (snd x <=? 255); cbn [length]; congruence.
Qed.
Lemma contains_member rt c : contains (table_of rt) c = true <-> member c (ranges rt).
Proof.
  unfold contains, table_of. pose proof (output_ranges rt) as RG. destruct (Output rt) as [[a b] o]. cbn [R16 R32]. rewrite <- map_app, RG. clear RG. unfold member. rewrite existsb_exists, Exists_exists. split.
  - intros (e & X & H). apply in_map_iff in X. destruct X as (x & <- & X). exists x. split; [exact X|]. unfold hits, with_stride in H. unfold within. lia.
  - intros (x & X & H). exists (with_stride x). split; [now apply in_map|]. unfold hits, with_stride. unfold within in H. rewrite Z.mod_1_r. lia.
Qed.
