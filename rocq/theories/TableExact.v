(* TableExact.v -- the collected tables for all sorted data, also around U+10000. *)
From Coq Require Import List ZArith Lia Bool.
From Verif Require Import Base Ucd UcdProofs RangeTable RangeTableProofs GoTables GoTablesProofs.
Import ListNotations.
Open Scope Z_scope.

(* ---- Specification ---- *)
(* ascending ranges, those of 16 bits first; a 32-bit range may begin below U+10000 *)
Record searchable (t : rtable) : Prop := mksearchable {
  s_all : ordered (-1) (R16 t ++ R32 t); s_16max : below 65535 (R16 t); s_32max : below (2 ^ 31 - 1) (R32 t) }.
(* a block of the data ends at U+10000, and it is not the last one *)
Definition ends_at_10000 (rs : list (Z * Z)) : Prop := member 65536 rs /\ ~ member 65537 rs /\ exists c, 65537 < c /\ member c rs.

(* ---- the search ---- *)
Lemma Is_exact t r : searchable t -> - 2 ^ 31 <= r < 2 ^ 31 -> Is t r = Ok (contains t r).
Proof.
  intros [SA S16 S32] R. pose proof (ordered_app _ _ _ SA) as [O (j & J & OB & BA)].
  assert (F32 : from32 t r = Ok (existsb (hits r) (R32 t))).
  { unfold from32. destruct (R32 t) as [|[[l h] s] rs] eqn:E; [reflexivity|]. rewrite zlen_cons. pose proof (zlen_nonneg rs). replace (0 <? zlen rs + 1) with true by lia. cbn [first_lo andb].
    destruct (Z.leb_spec l r).
    - assert (-1 < l) by (destruct OB; lia). unfold u32. rewrite Z.mod_small by lia. now apply (is32_ok _ j).
    - f_equal. symmetry. apply (misses_below _ (l - 1)); [|lia]. cbn in *. intuition lia. }
  unfold Is, contains. rewrite existsb_app. destruct (R16 t) as [|e rs] eqn:E.
  - cbn [existsb orb]. change (0 <? zlen (@nil entry)) with false. cbn [andb]. exact F32.
  - rewrite <- E in *. destruct (last_hi_spec (R16 t) (-1) O) as [H1 H2]; [congruence|]. pose proof (H2 _ S16) as H3. specialize (H2 _ BA).
    replace (0 <? zlen (R16 t)) with true by (rewrite E, zlen_cons; pose proof (zlen_nonneg rs); lia). cbn [andb]. unfold u32. destruct (Z.leb_spec (r mod 2 ^ 32) (last_hi (R16 t))) as [LE|GT].
    + assert (RR : 0 <= r <= 65535). { destruct (Z.leb_spec 0 r); [rewrite Z.mod_small in LE by lia; lia|]. assert (r mod 2 ^ 32 = r + 2 ^ 32) by (symmetry; apply (Z.mod_unique r (2 ^ 32) (-1)); lia). lia. }
      rewrite Z.mod_small in LE by lia. unfold u16. rewrite Z.mod_small by lia. rewrite (is16_ok _ (-1) r O). f_equal. rewrite (misses_below (R32 t) j r OB) by lia. now rewrite orb_false_r.
    + rewrite F32. f_equal. assert (N : existsb (hits r) (R16 t) = false); [|now rewrite N].
      destruct (Z.leb_spec 0 r); [|apply (misses_below _ (-1)); [exact O|lia]]. rewrite Z.mod_small in GT by lia. apply above_last. eapply below_weaken; [|exact H1]. lia.
Qed.

(* ---- the collector in the middle of any sorted data ---- *)
Definition under_ct (rs : list (Z * Z)) : Z := zlen (filter (fun x => snd x <=? 65536) rs).
Definition all_of (rt : collector) : list (Z * Z) := ranges rt ++ [(lo rt, hi rt)].
Record moving (rt : collector) : Prop := mkmoving {
  m_sorted : chained (-1) (all_of rt); m_cnt : cnt rt = zlen (ranges rt); m_first : ranges rt = [] -> hi rt <= 255; m_first' : forall x t, ranges rt = x :: t -> snd x <= 255;
  m_switch : switch32 rt = (if forallb (fun x => snd x <=? 65536) (ranges rt) then 0 else under_ct (ranges rt)) }.
Lemma step_moving rt l r : moving rt -> hi rt < l -> l <= r -> (ranges rt = [] -> hi rt + 1 < l) ->
  moving (Append rt l r) /\ forall c, member c (all_of (Append rt l r)) <-> member c (all_of rt) \/ l <= c <= r.
Proof.
  intros [GS GC GF GF' GW] H1 H2 H0. pose proof (chained_below _ _ _ GS) as CB. cbn [fst] in CB. unfold all_of in *. assert (FIT : lo rt <= hi rt). { apply chained_app in GS. destruct GS as [_ GS]. cbn [chained] in GS. lia. }
  unfold Append. destruct (Z.eqb_spec l (hi rt + 1)) as [->|NE].
  - split.
    + apply chained_app in GS. destruct GS as [GS1 GS2]. constructor; unfold all_of; cbn [ranges lo hi cnt latinOffset switch32]; auto.
      * apply chained_app. split; [exact GS1|]. cbn [chained] in *. lia.
      * intros X. specialize (H0 X). lia.
    + intros c. cbn [ranges lo hi]. unfold member. rewrite !Exists_app, !Exists_cons, !Exists_nil. unfold within. cbn [fst snd]. split; [|intuition lia]. intros [H|[H|[]]]; [tauto|].
      destruct (Z.leb_spec c (hi rt)); [left; right; left; lia|right; lia].
  - split.
    + constructor; unfold all_of; cbn [ranges lo hi cnt latinOffset switch32].
      * apply chained_app. split; [exact GS|]. rewrite rev_app_distr. cbn [rev app chained]. lia.
      * rewrite zlen_app, zlen_cons. change (zlen (@nil (Z * Z))) with 0. lia.
      * intros X. destruct (ranges rt); discriminate.
      * intros x t E. destruct (ranges rt) as [|y u] eqn:ER; cbn [app] in E; injection E as <- _; [cbn; apply GF; reflexivity|now apply (GF' y u)].
      * rewrite GW, forallb_app. unfold under_ct. rewrite filter_app. cbn [forallb filter snd]. rewrite andb_true_r.
        replace ((lo rt >? 65536) || (hi rt >? 65536)) with (negb (hi rt <=? 65536)) by lia. destruct (forallb (fun x => snd x <=? 65536) (ranges rt)) eqn:EF; cbn [andb].
        -- destruct (hi rt <=? 65536) eqn:EH; cbn [negb andb]; [reflexivity|]. rewrite app_nil_r. rewrite count_all by exact EF. exact GC.
        -- assert (NZ : zlen (filter (fun x => snd x <=? 65536) (ranges rt)) <> 0).
           { destruct (ranges rt) as [|y u] eqn:ER; [discriminate|]. cbn [filter]. specialize (GF' y u eq_refl). replace (snd y <=? 65536) with true by lia. rewrite zlen_cons. pose proof (zlen_nonneg (filter (fun x => snd x <=? 65536) u)). lia. }
           replace (zlen (filter (fun x => snd x <=? 65536) (ranges rt)) =? 0) with false by lia. cbn [andb].
           assert (BIG : 65536 < hi rt). { destruct (Z.ltb_spec 65536 (hi rt)); [assumption|]. exfalso. assert (forallb (fun x => snd x <=? 65536) (ranges rt) = true); [|congruence]. apply forallb_forall. intros x X. rewrite Forall_forall in CB. specialize (CB x X). lia. }
           replace (hi rt <=? 65536) with false by lia. now rewrite app_nil_r.
    + intros c. cbn [ranges lo hi]. unfold member. rewrite Exists_app, (Exists_cons _ (l, r)), Exists_nil. unfold within. cbn [fst snd]. tauto.
Qed.
Lemma collect_moving rs : sorted_from 1 rs -> moving (collect rs) /\ forall c, member c (all_of (collect rs)) <-> c = 0 \/ member c rs.
Proof.
  intros S. unfold collect. assert (G0 : moving new_collector). { constructor; cbn; try reflexivity; try lia; try discriminate. }
  assert (M0 : forall c, member c (all_of new_collector) <-> c = 0). { intros c. unfold all_of, member. cbn. rewrite Exists_cons, Exists_nil. unfold within. cbn. lia. }
  destruct rs as [|[l r] t]; [split; [exact G0|]; intros c; cbn [fold_left]; rewrite M0; unfold member; rewrite Exists_nil; tauto|]. destruct S as (S1 & S2 & S3). cbn [fold_left fst snd] in *.
  destruct (step_moving new_collector l r G0) as [G1 M1]; [cbn; lia|lia|cbn; lia|].
  assert (N1 : ranges (Append new_collector l r) <> []). { unfold Append. cbn. destruct (Z.eqb_spec l 1); [lia|discriminate]. }
  assert (H1 : hi (Append new_collector l r) = r) by apply Append_hi.
  assert (ME : forall c, member c (all_of (Append new_collector l r)) <-> c = 0 \/ member c [(l, r)]). { intros c. rewrite M1, M0. unfold member. rewrite Exists_cons, Exists_nil. unfold within. cbn. tauto. }
  change ((l, r) :: t) with ([(l, r)] ++ t). revert G1 N1 H1 ME. generalize (Append new_collector l r). generalize [(l, r)]. clear G0 M0 M1 S1 S2 l. revert r S3.
  induction t as [|[l r'] t IH]; intros r S3 p rt G N H ME; cbn [fold_left]; [rewrite app_nil_r; auto|]. destruct S3 as (S1 & S2 & S3). cbn [fst snd] in *.
  destruct (step_moving rt l r' G) as [G' M']; [lia|lia|congruence|]. replace (p ++ (l, r') :: t) with ((p ++ [(l, r')]) ++ t) by (rewrite <- app_assoc; reflexivity).
  apply (IH r'); auto; [now apply Append_ranges|apply Append_hi|]. intros c. rewrite M', ME. unfold member. rewrite Exists_app, Exists_cons, Exists_nil. unfold within. cbn. tauto.
Qed.
Lemma moving_output rt : moving rt -> Output rt = (filter (fun x => snd x <=? 65536) (ranges rt), filter (fun x => negb (snd x <=? 65536)) (ranges rt), latinOffset rt).
Proof.
  intros [GS GC GF GF' GW]. apply chained_app in GS. destruct GS as [GS _]. set (R := ranges rt) in *.
  assert (PRE : firstn (Z.to_nat (under_ct R)) R = filter (fun x => snd x <=? 65536) R).
  { apply filter_prefix. intros a x b y c E F. assert (snd y <= 65536) by lia. pose proof (chained_mono R (-1) 65536 GS a x b y c E H). lia. }
  assert (POST : skipn (Z.to_nat (under_ct R)) R = filter (fun x => negb (snd x <=? 65536)) R).
  { clear - GS. unfold under_ct. revert GS. generalize (-1). induction R as [|[l r] t IH]; intros k C; [reflexivity|]. cbn [filter snd]. cbn [chained] in C. destruct C as (C1 & C2 & C3). destruct (r <=? 65536) eqn:E.
    - rewrite zlen_cons. replace (Z.to_nat (zlen (filter (fun x => snd x <=? 65536) t) + 1)) with (S (Z.to_nat (zlen (filter (fun x => snd x <=? 65536) t)))) by (pose proof (zlen_nonneg (filter (fun x => snd x <=? 65536) t)); lia).
      rewrite skipn_cons. cbn [negb]. eapply IH, C3.
    - assert (A : forall m t, chained m t -> 65536 < m -> filter (fun x : Z * Z => snd x <=? 65536) t = [] /\ filter (fun x : Z * Z => negb (snd x <=? 65536)) t = t).
      { clear. intros m t. revert m. induction t as [|[l r] t IH]; intros m C M; [auto|]. cbn [chained] in C. destruct C as (C1 & C2 & C3). cbn [filter snd]. replace (r <=? 65536) with false by lia. cbn [negb]. destruct (IH (r + 1) C3) as [-> ->]; [lia|auto]. }
      destruct (A (r + 1) t C3) as [-> ->]; [lia|]. reflexivity. }
  unfold Output. fold R. rewrite GW. destruct (forallb (fun x => snd x <=? 65536) R) eqn:EF.
  - change (0 >? 0) with false. cbv iota. f_equal. f_equal.
    + clear - EF. induction R as [|x t IH]; [reflexivity|]. cbn [forallb filter] in *. apply andb_true_iff in EF. destruct EF as [-> EF]. now rewrite <- IH.
    + clear - EF. induction R as [|x t IH]; [reflexivity|]. cbn [forallb filter] in *. apply andb_true_iff in EF. destruct EF as [-> EF]. now apply IH.
  - assert (P : 0 < under_ct R). { unfold under_ct. destruct R as [|x t] eqn:ER; [discriminate|]. cbn [filter]. specialize (GF' x t eq_refl). replace (snd x <=? 65536) with true by lia. rewrite zlen_cons. pose proof (zlen_nonneg (filter (fun x => snd x <=? 65536) t)). lia. }
    replace (under_ct R >? 0) with true by lia. rewrite PRE, POST. reflexivity.
Qed.

(* ---- when the tables fit ---- *)
Lemma chained_after a k x b y : chained k (a ++ x :: b) -> In y b -> snd x + 1 < fst y.
Proof.
  intros C I. apply chained_app in C. destruct C as [_ C]. destruct x as [l r]. cbn [chained snd] in *. destruct C as (_ & _ & C). revert C I. generalize (r + 1) as m. clear. induction b as [|[l r] t IH]; intros m C I; [destruct I|].
  cbn [chained] in C. destruct C as (C1 & C2 & C3). destruct I as [<-|I]; [cbn; lia|]. specialize (IH _ C3 I). lia.
Qed.
Lemma chained_from a k y : chained k a -> In y a -> k < fst y.
Proof.
  revert k. induction a as [|[l r] t IH]; intros k C I; [destruct I|]. cbn [chained] in C. destruct C as (C1 & C2 & C3). destruct I as [<-|I]; [exact C1|]. specialize (IH _ C3 I). lia.
Qed.
Theorem fits_iff rs : sorted_from 1 rs -> (fits16 (collect rs) <-> ~ ends_at_10000 rs).
Proof.
  intros S. destruct (collect_moving rs S) as [M ME]. unfold fits16. rewrite (moving_output _ M). cbn [fst]. pose proof (m_sorted _ M) as C. unfold all_of in *. set (R := ranges (collect rs)) in *. set (last := (lo (collect rs), hi (collect rs))) in *.
  pose proof (chained_fits _ _ C) as FI. rewrite Forall_forall in FI. split.
  - intros F (E1 & E2 & c & C1 & E3). assert (A1 : member 65536 (R ++ [last])) by (apply ME; auto). assert (A3 : member c (R ++ [last])) by (apply ME; auto).
    apply Exists_exists in A1. destruct A1 as (x & X & W). unfold within in W. assert (SX : snd x = 65536).
    { destruct (Z.eqb_spec (snd x) 65536); [assumption|]. exfalso. apply E2. assert (Q : member 65537 (R ++ [last])) by (apply Exists_exists; exists x; split; [exact X|unfold within; lia]). apply ME in Q. destruct Q; [lia|assumption]. }
    apply in_app_or in X. destruct X as [X|[<-|[]]].
    + rewrite Forall_forall in F. specialize (F x). rewrite filter_In in F. destruct F as [_ F]; [split; [exact X|lia]|]. lia.
    + apply Exists_exists in A3. destruct A3 as (y & Y & V). unfold within in V. apply in_app_or in Y. destruct Y as [Y|[<-|[]]]; [|lia].
      pose proof (chained_below _ _ _ C) as CB. rewrite Forall_forall in CB. specialize (CB y Y). lia.
  - intros N. apply Forall_forall. intros x X. apply filter_In in X. destruct X as [X L]. unfold small. pose proof (chained_from _ _ x C ltac:(apply in_or_app; auto)) as LO. pose proof (FI x ltac:(apply in_or_app; auto)) as FX.
    destruct (Z.eqb_spec (snd x) 65536) as [E|]; [|lia]. exfalso. apply N. apply in_split in X. destruct X as (a & b & EQ). rewrite EQ in *.
    assert (AFT : forall y, In y (b ++ [last]) -> 65537 < fst y). { intros y Y. rewrite <- app_assoc in C. cbn [app] in C. pose proof (chained_after _ _ _ _ y C Y). lia. }
    split; [|split].
    + assert (Q : member 65536 ((a ++ x :: b) ++ [last])) by (apply Exists_exists; exists x; split; [apply in_or_app; left; apply in_or_app; right; left; reflexivity|unfold within; lia]). apply ME in Q. destruct Q; [lia|assumption].
    + intros Q. assert (P : member 65537 ((a ++ x :: b) ++ [last])) by (apply ME; auto). apply Exists_exists in P. destruct P as (y & Y & W). unfold within in W. rewrite <- app_assoc in Y. cbn [app] in Y. apply in_app_or in Y.
      destruct Y as [Y|[<-|Y]]; [|lia|specialize (AFT y Y); lia]. assert (CX : chained (-1) (a ++ [x])). { rewrite <- app_assoc in C. cbn [app] in C. replace (a ++ x :: b ++ [last]) with ((a ++ [x]) ++ b ++ [last]) in C by (rewrite <- app_assoc; reflexivity). now apply chained_app in C. }
      pose proof (chained_below _ _ _ CX) as CB. rewrite Forall_forall in CB. specialize (CB y Y). lia.
    + exists (fst last). assert (IL : In last (b ++ [last])) by (apply in_or_app; right; left; reflexivity). specialize (AFT last IL). split; [exact AFT|].
      assert (Q : member (fst last) ((a ++ x :: b) ++ [last])). { apply Exists_exists. exists last. split; [apply in_or_app; right; left; reflexivity|]. unfold within. pose proof (FI last ltac:(apply in_or_app; right; left; reflexivity)). lia. }
      apply ME in Q. destruct Q; [lia|assumption].
Qed.
Lemma fits_searchable rs : sorted_from 1 rs -> (forall x, In x rs -> snd x < 2 ^ 31) -> ~ ends_at_10000 rs -> searchable (table_of (collect rs)).
Proof.
  intros S MX N. destruct (collect_moving rs S) as [M ME]. apply fits_iff in N; [|exact S]. unfold fits16 in N. pose proof (output_ranges (collect rs)) as OR. unfold table_of. destruct (Output (collect rs)) as [[a b] off].
  cbn [fst] in N. pose proof (m_sorted _ M) as C. unfold all_of in *. apply chained_app in C. destruct C as [C _].
  constructor; cbn [R16 R32].
  - rewrite <- map_app, OR. now apply ordered_chained.
  - apply Forall_forall. intros e X. apply in_map_iff in X. destruct X as (x & <- & X). rewrite Forall_forall in N. specialize (N x X). unfold small in N. cbn. lia.
  - apply Forall_forall. intros e X. apply in_map_iff in X. destruct X as (x & <- & X). cbn. destruct (Z.leb_spec (snd x) (2 ^ 31 - 1)); [assumption|]. exfalso.
    assert (X' : In x (ranges (collect rs))) by (rewrite <- OR; apply in_or_app; auto). pose proof (chained_fits _ _ C) as F. rewrite Forall_forall in F. specialize (F x X').
    assert (Q : member (snd x) (ranges (collect rs) ++ [(lo (collect rs), hi (collect rs))])). { apply Exists_exists. exists x. split; [apply in_or_app; auto|unfold within; lia]. }
    apply ME in Q. destruct Q as [Q|Q]; [lia|]. apply Exists_exists in Q. destruct Q as (y & Y & W). unfold within in W. specialize (MX y Y). lia.
Qed.
