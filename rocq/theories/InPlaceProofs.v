(* InPlaceProofs.v -- the loops in place do what the functions on lists do. *)
From Coq Require Import List ZArith Lia Bool.
From Verif Require Import Base Scrap Reorder InPlace.
Import ListNotations.
Open Scope Z_scope.

Lemma nset_mid {A} (a : list A) x y b : nset (a ++ x :: b) (length a) y = a ++ y :: b.
Proof. induction a as [|z a IH]; [reflexivity|]. cbn [app length nset]. rewrite IH. reflexivity. Qed.
Lemma zset_mid {A} (a : list A) x y b : zset (a ++ x :: b) (zlen a) y = Some (a ++ y :: b).
Proof.
  unfold zset. replace ((0 <=? zlen a) && (zlen a <? zlen (a ++ x :: b))) with true.
  - unfold zlen. rewrite Nat2Z.id, nset_mid. reflexivity.
  - symmetry. apply andb_true_iff. rewrite zlen_app, zlen_cons. pose proof (zlen_nonneg a). pose proof (zlen_nonneg b). lia.
Qed.
Lemma zget_mid {A} (a : list A) x b : zget (a ++ x :: b) (zlen a) = Some x.
Proof.
  unfold zget. replace ((0 <=? zlen a) && (zlen a <? zlen (a ++ x :: b))) with true.
  - unfold zlen. rewrite Nat2Z.id. rewrite nth_error_app2 by lia. rewrite Nat.sub_diag. reflexivity.
  - symmetry. apply andb_true_iff. rewrite zlen_app, zlen_cons. pose proof (zlen_nonneg a). pose proof (zlen_nonneg b). lia.
Qed.

Lemma swap_ends {A} (a : list A) x m y b i j : i = zlen a -> j = zlen a + 1 + zlen m -> swap (a ++ x :: m ++ y :: b) i j = Ok (a ++ y :: m ++ x :: b).
Proof.
  intros -> ->. unfold swap.
  assert (E : forall u, zlen a + 1 + zlen m = zlen (a ++ u :: m)) by (intros u; rewrite zlen_app, zlen_cons; lia).
  assert (F : forall u v, a ++ u :: m ++ v :: b = (a ++ u :: m) ++ v :: b) by (intros; rewrite <- app_assoc; reflexivity).
  rewrite (F x y) at 1. rewrite (E x), zget_mid. cbn [lift rbind]. rewrite zget_mid. cbn [lift rbind]. rewrite zset_mid. cbn [lift rbind].
  rewrite (F y y). rewrite <- (E x), (E y), zset_mid. cbn [lift]. rewrite <- app_assoc. reflexivity.
Qed.

Lemma split_ends {A} (m : list A) : (2 <= length m)%nat -> exists x c y, m = x :: c ++ [y].
Proof.
  destruct m as [|x m]; cbn [length]; [lia|]. intros H. destruct m as [|z m]; [cbn in H; lia|].
  destruct (exists_last (l := z :: m)) as (c & y & E); [discriminate|]. rewrite E. eauto.
Qed.

(* The loop between two positions. *)
Lemma reverse_loop_mid {A} : forall n (m a b : list A) i j, (length m <= n)%nat -> i = zlen a -> j = zlen a + zlen m - 1 ->
  reverse_loop n (a ++ m ++ b) i j = Ok (a ++ rev m ++ b).
Proof.
  induction n as [|n IH]; intros m a b i j L -> ->.
  - destruct m; [|cbn in L; lia]. cbn [reverse_loop rev app]. rewrite zlen_nil. replace (zlen a <? zlen a + 0 - 1) with false by lia. reflexivity.
  - destruct (Nat.le_gt_cases 2 (length m)) as [H|H].
    + destruct (split_ends m H) as (x & c & y & ->). cbn [reverse_loop].
      assert (Z1 : zlen (x :: c ++ [y]) = zlen c + 2) by (rewrite zlen_cons, zlen_app, zlen_cons, zlen_nil; lia).
      rewrite Z1. pose proof (zlen_nonneg c). replace (zlen a <? zlen a + (zlen c + 2) - 1) with true by lia.
      replace (a ++ (x :: c ++ [y]) ++ b) with (a ++ x :: c ++ y :: b) by (cbn [app]; rewrite <- app_assoc; reflexivity).
      rewrite swap_ends by lia. cbn [rbind].
      replace (a ++ y :: c ++ x :: b) with ((a ++ [y]) ++ c ++ x :: b) by (rewrite <- app_assoc; reflexivity).
      rewrite IH.
      * f_equal. cbn [rev]. rewrite rev_app_distr. cbn [rev app]. rewrite <- !app_assoc. reflexivity.
      * cbn [length] in L. rewrite app_length in L. cbn [length] in L. lia.
      * rewrite zlen_app, zlen_cons, zlen_nil. lia.
      * rewrite zlen_app, zlen_cons, zlen_nil. lia.
    + assert (R : rev m = m) by (destruct m as [|x [|y m]]; [reflexivity|reflexivity|cbn in H; lia]). rewrite R.
      cbn [reverse_loop]. replace (zlen a <? zlen a + zlen m - 1) with false by (unfold zlen; lia). reflexivity.
Qed.

Lemma seg_split {A} (l : list A) i j : (i <= j)%nat -> (j <= length l)%nat -> l = firstn i l ++ firstn (j - i) (skipn i l) ++ skipn j l.
Proof.
  intros A1 A2. rewrite <- (firstn_skipn i l) at 1. f_equal. rewrite <- (firstn_skipn (j - i) (skipn i l)) at 1. f_equal.
  clear A2. revert i j A1. induction l as [|x l IH]; intros i j H; [rewrite !skipn_nil; reflexivity|].
  destruct i; [rewrite Nat.sub_0_r; reflexivity|]. destruct j; [lia|]. rewrite !skipn_cons. change (S j - S i)%nat with (j - i)%nat. apply IH. lia.
Qed.

Lemma loop_idle {A} n (l : list A) i j : j <= i -> reverse_loop n l i j = Ok l.
Proof. intros H. destruct n; cbn [reverse_loop]; replace (i <? j) with false by lia; reflexivity. Qed.

(* reverse: any two positions, in any order, also beyond the end. *)
Lemma reverse_go_seg {A} (l : list A) i j : 0 <= i -> 0 <= j ->
  reverse_go (length l) l i j = Ok (reverse_seg l (Z.to_nat (Z.min i j)) (Nat.min (length l) (Z.to_nat (Z.max i j)))).
Proof.
  intros I J. unfold reverse_go.
  assert (E : (if i >? j then (j, i) else (i, j)) = (Z.min i j, Z.max i j)) by (destruct (Z.gtb_spec i j); f_equal; lia). rewrite E. clear E.
  set (p := Z.min i j). set (q := Z.max i j). assert (PQ : 0 <= p <= q) by lia. clearbody p q. clear i j I J.
  destruct (Z.lt_ge_cases (zlen l) p) as [O|O].
  - rewrite loop_idle by lia. unfold reverse_seg. rewrite firstn_all2 by (unfold zlen in O; lia). rewrite (skipn_all2 (n := Z.to_nat p)) by (unfold zlen in O; lia).
    rewrite firstn_nil. rewrite skipn_all2 by (unfold zlen in O; lia). rewrite app_nil_r. reflexivity.
  - set (jn := Nat.min (length l) (Z.to_nat q)). unfold zlen in O. assert (PJ : (Z.to_nat p <= jn)%nat) by lia. assert (JL : (jn <= length l)%nat) by lia.
    unfold reverse_seg. rewrite (seg_split l (Z.to_nat p) jn) at 2 by auto. apply reverse_loop_mid.
    + rewrite firstn_length. lia.
    + unfold zlen. rewrite firstn_length. lia.
    + unfold zlen. rewrite !firstn_length, skipn_length. unfold jn. lia.
Qed.

Lemma reverse_isolates_go l : reverseWithoutIsolates_go (length l) l 0 (zlen l) = Ok (reverseWithoutIsolates l).
Proof.
  unfold reverseWithoutIsolates_go, reverseWithoutIsolates. destruct l as [|f t] eqn:E; [reflexivity|]. rewrite <- E.
  assert (LL : (0 < length l)%nat) by (rewrite E; cbn; lia). assert (ZL : 0 < zlen l) by (unfold zlen; lia).
  replace (zlen l =? 0) with false by lia. replace (0 >? zlen l) with false by (rewrite Z.gtb_ltb; lia). rewrite Z.min_id.
  replace (zget l 0) with (Some f) by (rewrite E; reflexivity). cbn [lift rbind].
  assert (G : zget l (zlen l - 1) = Some (last l f)).
  { destruct (exists_last (l := l)) as (a & y & EY); [rewrite E; discriminate|]. rewrite EY at 1 2. rewrite zlen_app, zlen_cons, zlen_nil.
    replace (zlen a + (0 + 1) - 1) with (zlen a) by lia. rewrite zget_mid. rewrite EY, last_last. reflexivity. }
  rewrite G. cbn [lift rbind].
  set (i := if isisolate f then 1%nat else 0%nat). set (j := if isisolate (last l f) then (length l - 1)%nat else length l).
  replace (if isisolate f then 0 + 1 else 0) with (Z.of_nat i) by (unfold i; destruct (isisolate f); reflexivity).
  replace (if isisolate (last l f) then zlen l - 1 else zlen l) with (Z.of_nat j) by (unfold j, zlen; destruct (isisolate (last l f)); lia).
  rewrite reverse_go_seg by lia. assert (I1 : (i <= 1)%nat) by (unfold i; destruct (isisolate f); lia). assert (J1 : (j <= length l)%nat) by (unfold j; destruct (isisolate (last l f)); lia).
  f_equal. destruct (Nat.leb_spec i j).
  - rewrite Z.min_l, Z.max_r by lia. rewrite !Nat2Z.id. rewrite Nat.min_r by lia. reflexivity.
  - rewrite Z.min_r, Z.max_l by lia. rewrite !Nat2Z.id. rewrite Nat.min_r by lia. reflexivity.
Qed.

(* The iterator's loop. *)
Lemma iter_loop_mid {A} : forall n (m a b : list A) i mid, (length m <= n)%nat -> i = zlen a -> zlen a = zlen b -> mid = zlen (a ++ m ++ b) / 2 ->
  iter_loop n (a ++ m ++ b) i mid = Ok (a ++ rev m ++ b).
Proof.
  induction n as [|n IH]; intros m a b i mid L -> AB ->.
  - destruct m; [|cbn in L; lia]. cbn [iter_loop rev app]. rewrite zlen_app, <- AB.
    replace (zlen a <? (zlen a + zlen a) / 2) with false; [reflexivity|]. symmetry. apply Z.ltb_ge. Z.div_mod_to_equations; lia.
  - cbn [iter_loop]. rewrite !zlen_app. destruct (Nat.le_gt_cases 2 (length m)) as [H|H].
    + destruct (split_ends m H) as (x & c & y & ->).
      assert (Z1 : zlen (x :: c ++ [y]) = zlen c + 2) by (rewrite zlen_cons, zlen_app, zlen_cons, zlen_nil; lia). rewrite Z1.
      pose proof (zlen_nonneg c). replace (zlen a <? (zlen a + (zlen c + 2 + zlen b)) / 2) with true by (symmetry; apply Z.ltb_lt; Z.div_mod_to_equations; lia).
      replace (a ++ (x :: c ++ [y]) ++ b) with (a ++ x :: c ++ y :: b) by (cbn [app]; rewrite <- app_assoc; reflexivity).
      rewrite swap_ends by lia. cbn [rbind].
      replace (a ++ y :: c ++ x :: b) with ((a ++ [y]) ++ c ++ x :: b) by (rewrite <- app_assoc; reflexivity).
      rewrite IH.
      * f_equal. cbn [rev]. rewrite rev_app_distr. cbn [rev app]. rewrite <- !app_assoc. reflexivity.
      * cbn [length] in L. rewrite app_length in L. cbn [length] in L. lia.
      * rewrite zlen_app, zlen_cons, zlen_nil. lia.
      * rewrite zlen_app, !zlen_cons, zlen_nil. lia.
      * f_equal. rewrite !zlen_app, !zlen_cons, zlen_nil. lia.
    + assert (R : rev m = m) by (destruct m as [|x [|y m]]; [reflexivity|reflexivity|cbn in H; lia]). rewrite R.
      replace (zlen a <? (zlen a + (zlen m + zlen b)) / 2) with false; [reflexivity|]. symmetry. apply Z.ltb_ge. assert (zlen m <= 1) by (unfold zlen; lia). pose proof (zlen_nonneg m). Z.div_mod_to_equations; lia.
Qed.
Lemma iter_reverse_rev {A} (l : list A) : iter_reverse (length l) l = Ok (rev l).
Proof.
  unfold iter_reverse. pose proof (iter_loop_mid (length l) l [] [] 0 (zlen l / 2) ltac:(lia) eq_refl eq_refl) as H. cbn [app] in H. rewrite !app_nil_r in H.
  apply H. reflexivity.
Qed.

(* The automaton. *)
Lemma level_pos s emb : (level s emb >? 0) = (0 <? level s emb).
Proof. rewrite Z.gtb_ltb. reflexivity. Qed.
Lemma seg_prefix {A} (a b : list A) i : (i <= length a)%nat -> reverse_seg (a ++ b) i (length a) = reverse_seg a i (length a) ++ b.
Proof.
  intros H. unfold reverse_seg. rewrite firstn_app, skipn_app. replace (i - length a)%nat with 0%nat by lia. cbn [firstn skipn]. rewrite app_nil_r.
  rewrite firstn_app, skipn_length, Nat.sub_diag. cbn [firstn]. rewrite app_nil_r. rewrite skipn_app, skipn_all, Nat.sub_diag. cbn [skipn app]. rewrite app_nil_r, <- app_assoc. reflexivity.
Qed.
Lemma seg_length {A} (a : list A) i j : (i <= j)%nat -> (j <= length a)%nat -> length (reverse_seg a i j) = length a.
Proof. intros H1 H2. unfold reverse_seg. rewrite !app_length, rev_length, !firstn_length, !skipn_length. lia. Qed.

Lemma automaton_loop emb : forall t done s start st n last, (length t < n)%nat -> last = zlen (done ++ s :: t) - 1 -> (start <= length done)%nat ->
  automaton n emb (done ++ s :: t) last (zlen done) (Z.of_nat start) st = Ok (order_loop emb done start st (s :: t)).
Proof.
  intros t. induction t as [t IH] using (well_founded_induction (well_founded_ltof _ (@length scrap))). unfold ltof in IH.
  intros done s start st n last LN EL SD. destruct n as [|n]; [lia|]. cbn [automaton order_loop]. rewrite zget_mid. cbn [lift rbind]. rewrite level_pos.
  assert (EQ : (zlen done =? last) = (length t =? 0)%nat).
  { subst last. rewrite zlen_app, zlen_cons. destruct (Nat.eqb_spec (length t) 0) as [Q|Q]; unfold zlen; lia. }
  rewrite EQ.
  assert (REV : forall k, (k <= length done)%nat -> reverse_go (length (done ++ s :: t)) (done ++ s :: t) (Z.of_nat k) (zlen done) = Ok (reverse_seg done k (length done) ++ s :: t)).
  { intros k K. rewrite reverse_go_seg by (unfold zlen; lia). rewrite Z.min_l, Z.max_r by (unfold zlen; lia). unfold zlen. rewrite !Nat2Z.id.
    rewrite Nat.min_r by (rewrite app_length; lia). rewrite seg_prefix by exact K. reflexivity. }
  assert (CONT : forall d' k st', length d' = length (done ++ [s]) -> (k <= length done)%nat ->
    (if (length t =? 0)%nat || (clz s =? cNULL) then Ok (d' ++ t) else automaton n emb (d' ++ t) last (zlen done + 1) (Z.of_nat k) st') =
    Ok (if clz s =? cNULL then d' ++ t else order_loop emb d' k st' t)).
  { intros d' k st' LD K. destruct t as [|x t]; cbn [length Nat.eqb orb].
    - cbn [order_loop]. rewrite app_nil_r. destruct (clz s =? cNULL); reflexivity.
    - destruct (clz s =? cNULL); [reflexivity|]. rewrite app_length in LD. cbn [length] in LD, LN.
      replace (zlen done + 1) with (zlen d') by (unfold zlen; lia). apply IH; [cbn; lia|lia| |lia].
      subst last. rewrite !zlen_app, !zlen_cons. unfold zlen. lia. }
  assert (E2 : done ++ s :: t = (done ++ [s]) ++ t) by (rewrite <- app_assoc; reflexivity).
  destruct st; cbn [negb].
  - destruct (Z.eqb_spec (level s emb) 0) as [LV|LV].
    + rewrite REV by exact SD. cbn [rbind].
      replace (reverse_seg done start (length done) ++ s :: t) with ((reverse_seg done start (length done) ++ [s]) ++ t) by (rewrite <- app_assoc; reflexivity).
      apply (CONT _ 0%nat); [rewrite !app_length, seg_length; lia|lia].
    + destruct (Nat.eqb_spec (length t) 0) as [LT|LT].
      * assert (ET : t = []) by (destruct t; [reflexivity|discriminate LT]). subst t. rewrite reverse_go_seg by (unfold zlen; lia). rewrite Z.min_l, Z.max_r by (unfold zlen; lia).
        rewrite Nat2Z.id. replace (Nat.min (length (done ++ [s])) (Z.to_nat (zlen done + 1))) with (length done + 1)%nat by (rewrite app_length; unfold zlen; cbn [length]; lia).
        cbn [rbind orb order_loop]. rewrite app_nil_r. destruct (clz s =? cNULL); reflexivity.
      * cbn [rbind]. rewrite E2. rewrite <- (CONT _ start true); [|reflexivity|exact SD]. destruct (Nat.eqb_spec (length t) 0); [lia|reflexivity].
  - destruct (0 <? level s emb); cbn [rbind]; rewrite E2; (apply CONT; [reflexivity|lia]).
Qed.

Lemma automaton_order emb l : automaton_go (length l) emb l = Ok (order_loop emb [] 0 false l).
Proof.
  unfold automaton_go. destruct l as [|s t]; [reflexivity|]. replace (zlen (s :: t) <=? 0) with false by (rewrite zlen_cons; pose proof (zlen_nonneg t); lia).
  rewrite Z.min_id. apply (automaton_loop emb t [] s 0 false (length (s :: t))); [cbn; lia|reflexivity|cbn; lia].
Qed.
