(* DequeProofs.v -- the ring buffer refines an unbounded list. *)
From Coq Require Import List ZArith Lia Bool.
From Verif Require Import Base Deque DequeSpec.
Import ListNotations.
Open Scope Z_scope.

Section Proofs.
Context {A : Type} (z : A).
Notation deque := (@deque A).

(* Representation invariant: a power-of-two ring of at least minCapacity slots (or none at all). *)
Definition ring (q : deque) (l : list A) : Prop :=
  let c := zlen (buf q) in
  (exists k, 6 <= k /\ c = 2 ^ k) /\ 0 <= head q < c /\
  tail q = (head q + count q) mod c /\ 0 <= count q <= c /\ zlen l = count q /\
  forall i, 0 <= i < count q -> zget (buf q) ((head q + i) mod c) = zget l i.
Definition Rep (q : deque) (l : list A) : Prop :=
  (q = mkq [] 0 0 0 /\ l = []) \/ ring q l.

Lemma pow2_ge64 k : 6 <= k -> 64 <= 2 ^ k.
Proof. intros. change 64 with (2 ^ 6). apply Z.pow_le_mono_r; lia. Qed.

Lemma mod_wrap h i c : 0 <= h < c -> 0 <= i <= c ->
  (h + i) mod c = if h + i <? c then h + i else h + i - c.
Proof.
  intros. destruct (Z.ltb_spec (h + i) c).
  - apply Z.mod_small; lia.
  - replace (h + i) with (h + i - c + 1 * c) at 1 by lia.
    rewrite Z.mod_add by lia. apply Z.mod_small; lia.
Qed.

Lemma mod_wrap_neg h i c : 0 <= h < c -> - c <= i < 0 ->
  (h + i) mod c = if h + i <? 0 then h + i + c else h + i.
Proof.
  intros. destruct (Z.ltb_spec (h + i) 0).
  - rewrite <- (Z.mod_add _ 1) by lia. rewrite Z.mul_1_l. apply Z.mod_small; lia.
  - apply Z.mod_small; lia.
Qed.

Lemma bmod_mod x (q : deque) k : 0 <= k -> zlen (buf q) = 2 ^ k -> bmod x q = x mod zlen (buf q).
Proof.
  intros Hk H. unfold bmod. rewrite H.
  replace (2 ^ k - 1) with (Z.ones k) by (rewrite Z.ones_equiv; lia).
  now apply Z.land_ones.
Qed.

Lemma zlen_repeat (n : nat) : zlen (repeat z n) = Z.of_nat n.
Proof. unfold zlen. now rewrite repeat_length. Qed.

Lemma zlen_firstn (l : list A) n : zlen (firstn n l) = Z.min (Z.of_nat n) (zlen l).
Proof. unfold zlen. rewrite firstn_length. lia. Qed.
Lemma zlen_skipn (l : list A) n : zlen (skipn n l) = Z.max 0 (zlen l - Z.of_nat n).
Proof. unfold zlen. rewrite skipn_length. lia. Qed.

Lemma copy_at_len dst off src :
  (off + length src <= length dst)%nat -> zlen (@copy_at A dst off src) = zlen dst.
Proof.
  intros. unfold copy_at. rewrite !zlen_app, !zlen_firstn, zlen_skipn. unfold zlen. lia.
Qed.

Lemma copy_at_get dst off src i :
  (off + length src <= length dst)%nat -> 0 <= i ->
  zget (@copy_at A dst off src) i =
    if (Z.of_nat off <=? i) && (i <? Z.of_nat off + zlen src)
    then zget src (i - Z.of_nat off) else zget dst i.
Proof.
  intros H Hi. unfold copy_at.
  rewrite firstn_all2 with (n := (length dst - off)%nat) by lia.
  rewrite !zget_app, !zlen_firstn.
  rewrite !zget_firstn. unfold zlen in *.
  destruct (Z.ltb_spec i (Z.min (Z.of_nat off) (Z.of_nat (length dst)))).
  - destruct (Z.leb_spec (Z.of_nat off) i); try lia. simpl.
    destruct (Z.ltb_spec i (Z.of_nat off)); try lia. auto.
  - destruct (Z.leb_spec (Z.of_nat off) i); try lia. simpl.
    replace (Z.min (Z.of_nat off) (Z.of_nat (length dst))) with (Z.of_nat off) by lia.
    destruct (Z.ltb_spec (i - Z.of_nat off) (Z.of_nat (length src))),
      (Z.ltb_spec i (Z.of_nat off + Z.of_nat (length src))); try lia; auto.
    rewrite zget_skipn by lia. f_equal. lia.
Qed.

Lemma zslice_some (l : list A) a b : 0 <= a <= b -> b <= zlen l ->
  zslice l a b = Some (firstn (Z.to_nat (b - a)) (skipn (Z.to_nat a) l)).
Proof.
  intros. unfold zslice.
  destruct (Z.leb_spec 0 a), (Z.leb_spec a b), (Z.leb_spec b (zlen l)); try lia. auto.
Qed.

Lemma zslice_len (l s : list A) a b : zslice l a b = Some s -> zlen s = b - a.
Proof.
  unfold zslice. destruct (_ && _) eqn:E; intros H; inversion H; subst.
  apply andb_true_iff in E as [E ?]. apply andb_true_iff in E as [? ?].
  rewrite zlen_firstn, zlen_skipn. lia.
Qed.

Lemma zslice_get (l s : list A) a b i : zslice l a b = Some s -> 0 <= i < b - a ->
  zget s i = zget l (a + i).
Proof.
  unfold zslice. destruct (_ && _) eqn:E; intros H Hi; inversion H; subst.
  apply andb_true_iff in E as [E ?]. apply andb_true_iff in E as [? ?].
  rewrite zget_firstn. destruct (Z.ltb_spec i (Z.of_nat (Z.to_nat (b - a)))); try lia.
  rewrite zget_skipn by lia. f_equal. lia.
Qed.

(* resize keeps the contents; the new capacity is twice the number of elements. *)
Lemma resize_ok q l : ring q l -> 0 < count q ->
  (exists k, 6 <= k /\ 2 * count q = 2 ^ k) ->
  exists q', resize z q = Some q' /\ ring q' l /\ zlen (buf q') = 2 * count q /\ count q' = count q.
Proof.
  intros [[k [Hk HC]] [HH [HT [HN [HL HG]]]]] Hpos [k' [Hk' HC']].
  pose proof (pow2_ge64 k Hk) as H64. set (c := zlen (buf q)) in *.
  assert (Hs : Z.shiftl (count q) 1 = 2 * count q) by (rewrite Z.shiftl_mul_pow2; lia).
  unfold resize. rewrite Hs.
  set (nb := repeat z (Z.to_nat (2 * count q))).
  assert (Hnb : zlen nb = 2 * count q) by (unfold nb; rewrite zlen_repeat; lia).
  rewrite mod_wrap in HT by lia.
  assert (Hbuf : exists b', (if tail q >? head q
     then do s <- zslice (buf q) (head q) (tail q); Some (copy_at nb 0 s)
     else do s1 <- zslice (buf q) (head q) (zlen (buf q));
          do s2 <- zslice (buf q) 0 (tail q);
          Some (copy_at (copy_at nb 0 s1) (Nat.min (length nb) (length s1)) s2)) = Some b'
     /\ zlen b' = 2 * count q /\ forall i, 0 <= i < count q -> zget b' i = zget l i).
  { destruct (Z.gtb_spec (tail q) (head q)) as [G|G].
    - destruct (Z.ltb_spec (head q + count q) c) as [W|W]; try lia.
      assert (Es : exists s, zslice (buf q) (head q) (tail q) = Some s)
        by (eexists; apply zslice_some; lia).
      destruct Es as [s Es]. rewrite Es. simpl obind.
      pose proof (zslice_len _ _ _ _ Es) as Ls. eexists; split; [reflexivity|].
      assert (0 + length s <= length nb)%nat by (unfold zlen in *; lia).
      split; [rewrite copy_at_len by auto; lia|].
      intros i Hi. rewrite copy_at_get by (auto; lia).
      destruct (Z.leb_spec (Z.of_nat 0) i), (Z.ltb_spec i (Z.of_nat 0 + zlen s)); try lia. simpl.
      replace (i - 0) with i by lia.
      rewrite (zslice_get _ _ _ _ _ Es) by lia. rewrite <- HG by lia.
      rewrite mod_wrap by lia. destruct (Z.ltb_spec (head q + i) c); try lia. auto.
    - destruct (Z.ltb_spec (head q + count q) c) as [W|W]; try lia.
      assert (Es : exists s, zslice (buf q) (head q) (zlen (buf q)) = Some s)
        by (eexists; apply zslice_some; fold c; lia).
      destruct Es as [s1 Es1]. rewrite Es1. simpl obind.
      assert (Es : exists s, zslice (buf q) 0 (tail q) = Some s)
        by (eexists; apply zslice_some; fold c; lia).
      destruct Es as [s2 Es2]. rewrite Es2. simpl obind.
      pose proof (zslice_len _ _ _ _ Es1) as Ls1. pose proof (zslice_len _ _ _ _ Es2) as Ls2.
      fold c in Ls1.
      assert (Nat.min (length nb) (length s1) = length s1) as -> by (unfold zlen in *; lia).
      assert (0 + length s1 <= length nb)%nat by (unfold zlen in *; lia).
      assert (zlen (copy_at nb 0 s1) = zlen nb) as Hc1 by (apply copy_at_len; auto).
      assert (length s1 + length s2 <= length (copy_at nb 0 s1))%nat by (unfold zlen in *; lia).
      eexists; split; [reflexivity|]. split; [rewrite copy_at_len by auto; lia|].
      intros i Hi. rewrite copy_at_get by (auto; lia). fold (zlen s1).
      rewrite <- HG by lia. rewrite mod_wrap by lia.
      destruct (Z.leb_spec (zlen s1) i).
      + destruct (Z.ltb_spec i (zlen s1 + zlen s2)); try lia. simpl.
        rewrite (zslice_get _ _ _ _ _ Es2) by lia.
        destruct (Z.ltb_spec (head q + i) c); try lia. f_equal. lia.
      + simpl. rewrite copy_at_get by (auto; lia).
        destruct (Z.leb_spec (Z.of_nat 0) i), (Z.ltb_spec i (Z.of_nat 0 + zlen s1)); try lia. simpl.
        rewrite Z.sub_0_r. rewrite (zslice_get _ _ _ _ _ Es1) by (fold c; lia).
        destruct (Z.ltb_spec (head q + i) c); try lia. auto. }
  destruct Hbuf as [b' [Hb [Lb Gb]]]. cbv zeta. rewrite Hb. cbn [obind].
  eexists; split; [reflexivity|]. unfold ring; cbn [buf head tail count].
  rewrite Lb. repeat split; try lia.
  - exists k'. split; auto.
  - rewrite Z.mod_small; lia.
  - intros i Hi. rewrite Z.mod_small by lia. apply Gb; lia.
Qed.

Lemma div4 k c : 6 <= k -> 4 * c = 2 ^ k -> 64 < 2 ^ k -> exists k', 6 <= k' /\ 2 * c = 2 ^ k'.
Proof.
  intros Hk H H64. assert (k <> 6) by (intro; subst; change (2 ^ 6) with 64 in H64; lia).
  exists (k - 1). split; [lia|]. replace k with (Z.succ (k - 1)) in H at 1 by lia.
  rewrite Z.pow_succ_r in H by lia. lia.
Qed.

Lemma shrink_ok q l : ring q l -> exists q', shrinkIfExcess z q = Some q' /\ ring q' l.
Proof.
  intros H. unfold shrinkIfExcess.
  destruct (zlen (buf q) >? minCapacity) eqn:E1; cbn [andb]; [|eauto].
  destruct (Z.shiftl (count q) 2 =? zlen (buf q)) eqn:E2; [|eauto].
  apply Z.eqb_eq in E2. apply Z.gtb_lt in E1. unfold minCapacity in E1.
  rewrite Z.shiftl_mul_pow2 in E2 by lia. change (2 ^ 2) with 4 in E2.
  pose proof H as [[k [Hk HC]] _]. pose proof (pow2_ge64 k Hk).
  destruct (resize_ok q l) as [q' [R [RR _]]]; [auto|lia| |eauto].
  apply (div4 k (count q)); auto; lia.
Qed.

Lemma rep_len q l : Rep q l -> count q = zlen l.
Proof. intros [[-> ->]|[_ [_ [_ [_ [H _]]]]]]; auto. Qed.

Lemma rep_ring q l : Rep q l -> 0 < count q -> ring q l.
Proof. intros [[-> ->]|H] ?; auto. simpl in *; lia. Qed.

(* After growIfFull there is always a free slot. *)
Lemma grow_ok q l : Rep q l ->
  exists q', growIfFull z q = Some q' /\ ring q' l /\ count q' = count q /\ count q' < zlen (buf q').
Proof.
  intros [[-> ->]|H].
  - eexists. split; [reflexivity|]. unfold ring; cbn [buf head tail count].
    rewrite zlen_repeat. unfold minCapacity. rewrite Z2Nat.id by lia.
    repeat split; try lia; try reflexivity.
    + exists 6; split; [lia|reflexivity].
  - unfold growIfFull. pose proof H as [[k [Hk HC]] [HH [HT [HN [HL HG]]]]].
    pose proof (pow2_ge64 k Hk).
    destruct (Z.ltb_spec (count q) (zlen (buf q))); [exists q; auto|].
    destruct (Z.eqb_spec (zlen (buf q)) 0); [lia|].
    destruct (Z.eqb_spec (count q) (zlen (buf q))); [|lia].
    destruct (resize_ok q l) as [q' [R [RR [C1 C2]]]]; auto; try lia.
    + exists (k + 1). split; [lia|]. rewrite Z.pow_add_r by lia. lia.
    + exists q'. split; [auto|]. split; [auto|]. lia.
Qed.

Lemma push_slot q l a : ring q l -> count q < zlen (buf q) ->
  exists b, zset (buf q) (tail q) a = Some b /\
    ring (mkq b (head q) (next q (tail q)) (count q + 1)) (l ++ [a]).
Proof.
  intros [[k [Hk HC]] [HH [HT [HN [HL HG]]]]] Hfree. pose proof (pow2_ge64 k Hk).
  set (c := zlen (buf q)) in *.
  assert (Ht : tail q = if head q + count q <? c then head q + count q else head q + count q - c)
    by (rewrite HT; apply mod_wrap; lia).
  assert (0 <= tail q < c) by (rewrite Ht; destruct (Z.ltb_spec (head q + count q) c); lia).
  destruct (zset_Some (buf q) (tail q) a) as [b Hb]; [fold c; lia|].
  exists b. split; auto. pose proof (zset_len _ _ _ _ Hb) as Lb. fold c in Lb.
  unfold ring; cbn [buf head tail count]. rewrite Lb. unfold next.
  rewrite (bmod_mod _ q k) by (fold c; lia). fold c.
  repeat split; try lia.
  - eauto.
  - rewrite HT. rewrite Z.add_assoc. rewrite Zplus_mod_idemp_l. reflexivity.
  - rewrite zlen_app. change (zlen [a]) with 1. lia.
  - intros i Hi. rewrite (zget_zset _ _ _ _ _ Hb). rewrite zget_app, HL.
    assert (Hi' : (head q + i) mod c = if head q + i <? c then head q + i else head q + i - c)
      by (apply mod_wrap; lia).
    destruct (Z.ltb_spec i (count q)).
    + rewrite <- HG by lia. destruct (Z.eqb_spec ((head q + i) mod c) (tail q)); auto.
      exfalso. rewrite Hi', Ht in e.
      destruct (Z.ltb_spec (head q + i) c), (Z.ltb_spec (head q + count q) c); lia.
    + assert (i = count q) by lia. subst i. rewrite <- HT.
      destruct (Z.eqb_spec (tail q) (tail q)); try lia.
      replace (count q - count q) with 0 by lia. reflexivity.
Qed.

Lemma PushBack_ok q l a : Rep q l -> exists q', PushBack z q a = Some q' /\ Rep q' (l ++ [a]).
Proof.
  intros H. unfold PushBack.
  assert (G : exists q1, (if count q >=? zlen (buf q) then growIfFull z q else Some q) = Some q1
     /\ ring q1 l /\ count q1 < zlen (buf q1)).
  { destruct (grow_ok q l H) as [q' [G1 [G2 [G3 G4]]]].
    destruct (Z.geb_spec (count q) (zlen (buf q))); [eauto|].
    exists q; split; [auto|]. split; [|auto].
    destruct H as [[-> ->]|H]; auto. cbn in *; lia. }
  destruct G as [q1 [-> [R F]]]. simpl obind.
  destruct (push_slot q1 l a R F) as [b [-> RR]]. simpl obind.
  eexists; split; [reflexivity|]. right; auto.
Qed.

Lemma PushFront_ok q l a : Rep q l -> exists q', PushFront z q a = Some q' /\ Rep q' (a :: l).
Proof.
  intros H. unfold PushFront.
  destruct (grow_ok q l H) as [q1 [-> [R [_ F]]]]. simpl obind.
  pose proof R as [[k [Hk HC]] [HH [HT [HN [HL HG]]]]]. pose proof (pow2_ge64 k Hk).
  unfold prev. rewrite (bmod_mod _ q1 k) by lia. set (c := zlen (buf q1)) in *.
  assert (Hh : (head q1 - 1) mod c = if head q1 - 1 <? 0 then head q1 - 1 + c else head q1 - 1).
  { replace (head q1 - 1) with (head q1 + -1) by lia. apply mod_wrap_neg; lia. }
  set (h := (head q1 - 1) mod c) in *.
  assert (0 <= h < c) by (rewrite Hh; destruct (Z.ltb_spec (head q1 - 1) 0); lia).
  destruct (zset_Some (buf q1) h a) as [b Hb]; [fold c; lia|]. rewrite Hb. simpl obind.
  eexists; split; [reflexivity|]. right. pose proof (zset_len _ _ _ _ Hb) as Lb. fold c in Lb.
  unfold ring; cbn [buf head tail count]. rewrite Lb.
  repeat split; try lia.
  - eauto.
  - rewrite HT. rewrite !mod_wrap by lia.
    destruct (Z.ltb_spec (head q1 - 1) 0), (Z.ltb_spec (head q1 + count q1) c), (Z.ltb_spec (h + (count q1 + 1)) c); lia.
  - rewrite zlen_cons. lia.
  - intros i Hi. rewrite (zget_zset _ _ _ _ _ Hb). rewrite zget_cons by lia.
    rewrite (mod_wrap h i) by lia.
    destruct (Z.eqb_spec i 0).
    + subst i. destruct (Z.ltb_spec (h + 0) c); try lia.
      destruct (Z.eqb_spec (h + 0) h); try lia. auto.
    + rewrite <- HG by lia. rewrite mod_wrap by lia.
      destruct (Z.ltb_spec (h + i) c), (Z.ltb_spec (head q1 + (i - 1)) c), (Z.ltb_spec (head q1 - 1) 0); try lia.
      all: match goal with |- context [?u =? ?v] => destruct (Z.eqb_spec u v); try lia end.
      all: f_equal; lia.
Qed.

Lemma PopFront_ok q a l : Rep q (a :: l) -> exists q', PopFront z q = Some (a, q') /\ Rep q' l.
Proof.
  intros H. pose proof (rep_len _ _ H) as HLn. rewrite zlen_cons in HLn.
  pose proof (zlen_nonneg l). assert (R : ring q (a :: l)) by (apply rep_ring; auto; lia).
  unfold PopFront. destruct (Z.leb_spec (count q) 0); try lia.
  pose proof R as [[k [Hk HC]] [HH [HT [HN [HL HG]]]]]. pose proof (pow2_ge64 k Hk).
  set (c := zlen (buf q)) in *.
  assert (G0 : zget (buf q) (head q) = Some a).
  { specialize (HG 0). rewrite Z.add_0_r, Z.mod_small in HG by lia. rewrite HG by lia. now vm_compute. }
  rewrite G0. simpl obind.
  destruct (zset_Some (buf q) (head q) z) as [b Hb]; [fold c; lia|]. rewrite Hb. simpl obind.
  pose proof (zset_len _ _ _ _ Hb) as Lb. fold c in Lb.
  destruct (shrink_ok (mkq b (next q (head q)) (tail q) (count q - 1)) l) as [q' [S R']].
  2:{ rewrite S. simpl. eexists; split; [reflexivity|]. right; auto. }
  unfold ring; cbn [buf head tail count]. rewrite Lb. unfold next.
  rewrite (bmod_mod _ q k) by (fold c; lia). fold c.
  assert (Hh : (head q + 1) mod c = if head q + 1 <? c then head q + 1 else head q + 1 - c)
    by (apply mod_wrap; lia). set (h := (head q + 1) mod c) in *.
  assert (0 <= h < c) by (rewrite Hh; destruct (Z.ltb_spec (head q + 1) c); lia).
  repeat split; try lia.
  - eauto.
  - rewrite HT. rewrite !mod_wrap by lia.
    destruct (Z.ltb_spec (head q + count q) c), (Z.ltb_spec (head q + 1) c), (Z.ltb_spec (h + (count q - 1)) c); lia.
  - intros i Hi. rewrite (zget_zset _ _ _ _ _ Hb).
    assert (HGi := HG (i + 1)). rewrite zget_cons in HGi by lia.
    destruct (Z.eqb_spec (i + 1) 0); try lia. replace (i + 1 - 1) with i in HGi by lia.
    rewrite <- HGi by lia. rewrite !mod_wrap by lia.
    destruct (Z.ltb_spec (h + i) c), (Z.ltb_spec (head q + (i + 1)) c), (Z.ltb_spec (head q + 1) c); try lia.
    all: match goal with |- context [?u =? ?v] => destruct (Z.eqb_spec u v); try lia end.
    all: f_equal; lia.
Qed.

Lemma tail_prev q l : ring q l -> 0 < count q ->
  prev q (tail q) = (head q + (count q - 1)) mod zlen (buf q).
Proof.
  intros [[k [Hk HC]] [HH [HT [HN _]]]] Hp. unfold prev. rewrite (bmod_mod _ q k) by lia.
  rewrite HT. rewrite Zminus_mod_idemp_l. f_equal. lia.
Qed.

Lemma PopBack_ok q a l : Rep q (l ++ [a]) -> exists q', PopBack z q = Some (a, q') /\ Rep q' l.
Proof.
  intros H. pose proof (rep_len _ _ H) as HLn. rewrite zlen_app in HLn.
  change (zlen [a]) with 1 in HLn.
  pose proof (zlen_nonneg l). assert (R : ring q (l ++ [a])) by (apply rep_ring; auto; lia).
  unfold PopBack. destruct (Z.leb_spec (count q) 0); try lia.
  pose proof (tail_prev q _ R ltac:(lia)) as HP.
  pose proof R as [[k [Hk HC]] [HH [HT [HN [HL HG]]]]]. pose proof (pow2_ge64 k Hk).
  set (c := zlen (buf q)) in *. set (t := prev q (tail q)) in *. clearbody t.
  assert (Ht : t = if head q + (count q - 1) <? c then head q + (count q - 1) else head q + (count q - 1) - c)
    by (rewrite HP; apply mod_wrap; lia).
  assert (0 <= t < c) by (rewrite Ht; destruct (Z.ltb_spec (head q + (count q - 1)) c); lia).
  assert (G0 : zget (buf q) t = Some a).
  { rewrite HP. rewrite HG by lia. rewrite zget_app.
    destruct (Z.ltb_spec (count q - 1) (zlen l)); try lia.
    replace (count q - 1 - zlen l) with 0 by lia. reflexivity. }
  rewrite G0. simpl obind.
  destruct (zset_Some (buf q) t z) as [b Hb]; [fold c; lia|]. rewrite Hb. simpl obind.
  pose proof (zset_len _ _ _ _ Hb) as Lb. fold c in Lb.
  destruct (shrink_ok (mkq b (head q) t (count q - 1)) l) as [q' [S R']].
  2:{ rewrite S. simpl. eexists; split; [reflexivity|]. right; auto. }
  unfold ring; cbn [buf head tail count]. rewrite Lb.
  repeat split; try lia.
  - eauto.
  - intros i Hi. rewrite (zget_zset _ _ _ _ _ Hb).
    assert (HGi := HG i). rewrite zget_app in HGi.
    destruct (Z.ltb_spec i (zlen l)); try lia.
    rewrite <- HGi by lia. rewrite !mod_wrap by lia.
    destruct (Z.ltb_spec (head q + i) c), (Z.ltb_spec (head q + (count q - 1)) c); try lia.
    all: match goal with |- context [?u =? ?v] => destruct (Z.eqb_spec u v); try lia end.
    all: auto.
Qed.

Lemma At_ok q l i : Rep q l -> At q i = zget l i.
Proof.
  intros H. unfold At. pose proof (rep_len _ _ H) as HLn.
  destruct (Z.ltb_spec i 0), (Z.geb_spec i (count q)); simpl; try (symmetry; apply zget_None; lia).
  assert (R : ring q l) by (apply rep_ring; auto; lia).
  pose proof R as [[k [Hk HC]] [HH [HT [HN [HL HG]]]]].
  rewrite (bmod_mod _ q k) by lia. apply HG; lia.
Qed.

Lemma SetAt_ok q l i a : Rep q l ->
  match zset l i a with
  | Some l' => exists q', SetAt q i a = Some q' /\ Rep q' l'
  | None => SetAt q i a = None
  end.
Proof.
  intros H. pose proof (rep_len _ _ H) as HLn.
  destruct (zset l i a) as [l'|] eqn:E.
  - assert (0 <= i < zlen l).
    { unfold zset in E. destruct (Z.leb_spec 0 i), (Z.ltb_spec i (zlen l)); simpl in E; try discriminate; lia. }
    unfold SetAt. destruct (Z.ltb_spec i 0), (Z.geb_spec i (count q)); try lia; simpl.
    assert (R : ring q l) by (apply rep_ring; auto; lia).
    pose proof R as [[k [Hk HC]] [HH [HT [HN [HL HG]]]]]. pose proof (pow2_ge64 k Hk).
    rewrite (bmod_mod _ q k) by lia. set (c := zlen (buf q)) in *.
    assert (0 <= (head q + i) mod c < c) by (apply Z.mod_pos_bound; lia).
    destruct (zset_Some (buf q) ((head q + i) mod c) a) as [b Hb]; [fold c; lia|]. rewrite Hb.
    simpl obind. eexists; split; [reflexivity|]. right.
    pose proof (zset_len _ _ _ _ Hb) as Lb. fold c in Lb. pose proof (zset_len _ _ _ _ E).
    unfold ring; cbn [buf head tail count]. rewrite Lb. repeat split; try lia; eauto.
    intros j Hj. rewrite (zget_zset _ _ _ _ _ Hb), (zget_zset _ _ _ _ _ E).
    rewrite !mod_wrap by lia. rewrite <- HG by lia. rewrite mod_wrap by lia.
    destruct (Z.ltb_spec (head q + i) c), (Z.ltb_spec (head q + j) c), (Z.eqb_spec j i); try lia.
    all: match goal with |- context [?u =? ?v] => destruct (Z.eqb_spec u v); try lia end; auto.
  - unfold SetAt. unfold zset in E. rewrite HLn.
    destruct (Z.leb_spec 0 i), (Z.ltb_spec i (zlen l)); simpl in E; try discriminate;
      destruct (Z.ltb_spec i 0), (Z.geb_spec i (zlen l)); try lia; auto.
Qed.

Lemma Front_ok q l : Rep q l -> Front q = match l with [] => None | a :: _ => Some a end.
Proof.
  intros H. unfold Front. pose proof (rep_len _ _ H) as HLn.
  destruct l as [|a l]; [rewrite HLn; auto|]. rewrite zlen_cons in HLn. pose proof (zlen_nonneg l).
  destruct (Z.leb_spec (count q) 0); try lia.
  assert (R : ring q (a :: l)) by (apply rep_ring; auto; lia).
  pose proof R as [[k [Hk HC]] [HH [HT [HN [HL HG]]]]].
  specialize (HG 0). rewrite Z.add_0_r, Z.mod_small in HG by lia. rewrite HG by lia. now vm_compute.
Qed.

Lemma Back_ok q l : Rep q l -> Back q = match rev l with [] => None | a :: _ => Some a end.
Proof.
  intros H. unfold Back. pose proof (rep_len _ _ H) as HLn.
  destruct l as [|a l _] using rev_ind; [rewrite HLn; auto|].
  rewrite rev_app_distr. simpl. rewrite zlen_app in HLn. change (zlen [a]) with 1 in HLn.
  pose proof (zlen_nonneg l). destruct (Z.leb_spec (count q) 0); try lia.
  assert (R : ring q (l ++ [a])) by (apply rep_ring; auto; lia).
  rewrite (tail_prev _ _ R) by lia. pose proof R as [_ [_ [_ [_ [HL HG]]]]].
  rewrite HG by lia. rewrite zget_app. destruct (Z.ltb_spec (count q - 1) (zlen l)); try lia.
  replace (count q - 1 - zlen l) with 0 by lia. reflexivity.
Qed.

Lemma LastAtom_ok q l a : Rep q (l ++ [a]) -> LastAtom q = Some a.
Proof.
  intros H. pose proof (Back_ok _ _ H) as B. rewrite rev_app_distr in B. simpl in B.
  unfold Back in B. unfold LastAtom. destruct (count q <=? 0); congruence.
Qed.

(* ---- Clear ---- *)
Lemma clear_loop_ok q : forall fuel b h d,
  (exists k, 6 <= k /\ zlen (buf q) = 2 ^ k) -> zlen b = zlen (buf q) ->
  0 <= h < zlen (buf q) -> 0 <= d -> (Z.to_nat d <= fuel)%nat -> d <= zlen (buf q) ->
  tail q = (h + d) mod zlen (buf q) ->
  exists b', clear_loop z fuel q b h = Some b' /\ zlen b' = zlen b.
Proof.
  induction fuel as [|f IH]; intros b h d [k [Hk HC]] HB HH Hd Hf Hdc HT; pose proof (pow2_ge64 k Hk).
  - assert (d = 0) by lia. subst d. rewrite Z.add_0_r, Z.mod_small in HT by lia.
    simpl. rewrite HT. rewrite Z.eqb_refl. eauto.
  - simpl. destruct (Z.eqb_spec h (tail q)); eauto.
    assert (d <> 0). { intro; subst d. rewrite Z.add_0_r, Z.mod_small in HT by lia. congruence. }
    destruct (zset_Some b h z) as [b1 Hb1]; [lia|]. rewrite Hb1. simpl obind.
    pose proof (zset_len _ _ _ _ Hb1).
    rewrite (bmod_mod _ q k) by lia.
    destruct (IH b1 ((h + 1) mod zlen (buf q)) (d - 1)) as [b' [E L]]; eauto; try lia.
    + apply Z.mod_pos_bound; lia.
    + rewrite Zplus_mod_idemp_l. rewrite HT. f_equal. lia.
    + exists b'. split; auto. congruence.
Qed.

Lemma Clear_ok q l : Rep q l -> exists q', Clear z q = Some q' /\ Rep q' [].
Proof.
  intros [[-> ->]|R].
  - eexists; split; [reflexivity|]. left; auto.
  - pose proof R as [[k [Hk HC]] [HH [HT [HN [HL HG]]]]]. unfold Clear.
    destruct (clear_loop_ok q (length (buf q)) (buf q) (head q) (count q)) as [b [E L]]; eauto; try lia.
    + unfold zlen in *. lia.
    + rewrite E. simpl. eexists; split; [reflexivity|]. right. unfold ring; cbn [buf head tail count].
      pose proof (pow2_ge64 k Hk). rewrite L. repeat split; try lia; eauto.
Qed.

(* ---- Rotate ---- *)
Lemma rot_front_ok q a l : ring q (a :: l) -> count q < zlen (buf q) ->
  exists q', rot_front z q = Some q' /\ ring q' (l ++ [a]) /\ zlen (buf q') = zlen (buf q) /\ count q' = count q.
Proof.
  intros R F. pose proof R as [[k [Hk HC]] [HH [HT [HN [HL HG]]]]]. pose proof (pow2_ge64 k Hk).
  unfold rot_front. set (c := zlen (buf q)) in *.
  rewrite zlen_cons in HL. pose proof (zlen_nonneg l).
  assert (G0 : zget (buf q) (head q) = Some a).
  { specialize (HG 0). rewrite Z.add_0_r, Z.mod_small in HG by lia. rewrite HG by lia. now vm_compute. }
  rewrite G0. simpl obind. rewrite mod_wrap in HT by lia.
  assert (0 <= tail q < c) by (rewrite HT; destruct (Z.ltb_spec (head q + count q) c); lia).
  destruct (zset_Some (buf q) (tail q) a) as [b Hb]; [fold c; lia|]. rewrite Hb. simpl obind.
  pose proof (zset_len _ _ _ _ Hb) as Lb. fold c in Lb.
  destruct (zset_Some b (head q) z) as [b' Hb']; [lia|]. rewrite Hb'. simpl obind.
  pose proof (zset_len _ _ _ _ Hb') as Lb'.
  eexists; split; [reflexivity|]. cbn [buf count]. split; [|split; auto; congruence].
  rewrite !(bmod_mod _ q k) by (fold c; lia). fold c. unfold ring; cbn [buf head tail count].
  rewrite Lb', Lb. assert (0 <= (head q + 1) mod c < c) by (apply Z.mod_pos_bound; lia).
  repeat split; try lia.
  - eauto.
  - rewrite Zplus_mod_idemp_l. rewrite HT.
    replace (head q + 1 + count q) with (head q + count q + 1) by lia.
    destruct (Z.ltb_spec (head q + count q) c); auto.
    replace (head q + count q + 1) with (head q + count q - c + 1 + 1 * c) by lia.
    now rewrite Z.mod_add by lia.
  - rewrite zlen_app. change (zlen [a]) with 1. lia.
  - intros i Hi. rewrite (zget_zset _ _ _ _ _ Hb'), (zget_zset _ _ _ _ _ Hb).
    rewrite Zplus_mod_idemp_l. replace (head q + 1 + i) with (head q + (i + 1)) by lia.
    rewrite zget_app. rewrite (mod_wrap _ (i + 1)) by lia.
    destruct (Z.ltb_spec i (zlen l)).
    + assert (HGi := HG (i + 1)). rewrite zget_cons in HGi by lia.
      destruct (Z.eqb_spec (i + 1) 0); try lia. replace (i + 1 - 1) with i in HGi by lia.
      rewrite <- HGi by lia. rewrite mod_wrap by lia.
      destruct (Z.ltb_spec (head q + (i + 1)) c), (Z.ltb_spec (head q + count q) c);
      repeat match goal with |- context [?u =? ?v] => destruct (Z.eqb_spec u v); try lia end; auto.
    + assert (i = zlen l) by lia. subst i. replace (zlen l - zlen l) with 0 by lia.
      change (zget [a] 0) with (Some a).
      destruct (Z.ltb_spec (head q + (zlen l + 1)) c), (Z.ltb_spec (head q + count q) c);
      repeat match goal with |- context [?u =? ?v] => destruct (Z.eqb_spec u v); try lia end; auto.
Qed.

Lemma rot_back_ok q a l : ring q (l ++ [a]) -> count q < zlen (buf q) ->
  exists q', rot_back z q = Some q' /\ ring q' (a :: l) /\ zlen (buf q') = zlen (buf q) /\ count q' = count q.
Proof.
  intros R F. pose proof R as [[k [Hk HC]] [HH [HT [HN [HL HG]]]]]. pose proof (pow2_ge64 k Hk).
  rewrite zlen_app in HL. change (zlen [a]) with 1 in HL. pose proof (zlen_nonneg l).
  pose proof (tail_prev q _ R ltac:(lia)) as HP. unfold prev in HP.
  unfold rot_back. rewrite HP. rewrite (bmod_mod _ q k) by lia. set (c := zlen (buf q)) in *.
  rewrite mod_wrap in HP by lia.
  rewrite (mod_wrap _ (count q - 1)) by lia.
  set (t := if head q + (count q - 1) <? c then head q + (count q - 1) else head q + (count q - 1) - c) in *.
  replace (head q - 1) with (head q + -1) by lia. rewrite (mod_wrap_neg (head q) (-1)) by lia.
  set (h := if head q + -1 <? 0 then head q + -1 + c else head q + -1) in *.
  assert (Ht : (head q + (count q - 1) < c /\ t = head q + (count q - 1)) \/
               (c <= head q + (count q - 1) /\ t = head q + (count q - 1) - c))
    by (unfold t; destruct (Z.ltb_spec (head q + (count q - 1)) c); lia).
  assert (Hh : (head q = 0 /\ h = c - 1) \/ (0 < head q /\ h = head q - 1))
    by (unfold h; destruct (Z.ltb_spec (head q + -1) 0); lia).
  clearbody t h.
  assert (G0 : zget (buf q) t = Some a).
  { assert (HGi := HG (count q - 1)). rewrite mod_wrap, zget_app in HGi by lia.
    destruct (Z.ltb_spec (count q - 1) (zlen l)); try lia.
    replace (count q - 1 - zlen l) with 0 in HGi by lia. specialize (HGi ltac:(lia)).
    change (zget [a] 0) with (Some a) in HGi. rewrite <- HGi. f_equal.
    destruct (Z.ltb_spec (head q + (count q - 1)) c); lia. }
  rewrite G0. simpl obind.
  destruct (zset_Some (buf q) h a) as [b Hb]; [fold c; lia|]. rewrite Hb. simpl obind.
  pose proof (zset_len _ _ _ _ Hb) as Lb. fold c in Lb.
  destruct (zset_Some b t z) as [b' Hb']; [lia|]. rewrite Hb'. simpl obind.
  pose proof (zset_len _ _ _ _ Hb') as Lb'.
  eexists; split; [reflexivity|]. cbn [buf count]. split; [|split; auto; congruence].
  unfold ring; cbn [buf head tail count]. rewrite Lb', Lb.
  repeat split; try lia.
  - eauto.
  - rewrite mod_wrap by lia. destruct (Z.ltb_spec (h + count q) c); lia.
  - rewrite zlen_cons; lia.
  - intros i Hi. rewrite (zget_zset _ _ _ _ _ Hb'), (zget_zset _ _ _ _ _ Hb).
    rewrite zget_cons by lia. rewrite (mod_wrap h i) by lia.
    destruct (Z.eqb_spec i 0).
    + subst i. destruct (Z.ltb_spec (h + 0) c); try lia.
      repeat match goal with |- context [?u =? ?v] => destruct (Z.eqb_spec u v); try lia end; auto.
    + assert (HGi := HG (i - 1)). rewrite zget_app in HGi.
      destruct (Z.ltb_spec (i - 1) (zlen l)); try lia.
      rewrite <- HGi by lia. rewrite mod_wrap by lia.
      destruct (Z.ltb_spec (h + i) c), (Z.ltb_spec (head q + (i - 1)) c); try lia;
      repeat match goal with |- context [?u =? ?v] => destruct (Z.eqb_spec u v); try lia end;
      f_equal; lia.
Qed.

Lemma iter_front_ok : forall n q l, ring q l -> count q < zlen (buf q) -> (n <= length l)%nat ->
  exists q', iter_opt n (rot_front z) q = Some q' /\ ring q' (skipn n l ++ firstn n l).
Proof.
  induction n as [|n IH]; intros q l R F Hn.
  - simpl. rewrite app_nil_r. eauto.
  - destruct l as [|a l]; [simpl in Hn; lia|].
    destruct (rot_front_ok q a l R F) as [q1 [E [R1 [C1 C2]]]]. simpl iter_opt. rewrite E. simpl obind.
    destruct (IH q1 (l ++ [a]) R1) as [q2 [E2 R2]]; try lia.
    { rewrite app_length; simpl in *; lia. }
    exists q2. split; auto. simpl in Hn.
    rewrite skipn_app, firstn_app in R2.
    replace (n - length l)%nat with O in R2 by lia. simpl in R2.
    rewrite app_nil_r in R2. simpl. rewrite <- app_assoc in R2. exact R2.
Qed.

Lemma iter_back_ok : forall n q l, ring q l -> count q < zlen (buf q) -> (n <= length l)%nat ->
  exists q', iter_opt n (rot_back z) q = Some q' /\
     ring q' (skipn (length l - n) l ++ firstn (length l - n) l).
Proof.
  induction n as [|n IH]; intros q l R F Hn.
  - simpl. replace (length l - 0)%nat with (length l) by lia. rewrite skipn_all, firstn_all. simpl. eauto.
  - destruct l as [|a l _] using rev_ind; [simpl in Hn; lia|].
    destruct (rot_back_ok q a l R F) as [q1 [E [R1 [C1 C2]]]]. simpl iter_opt. rewrite E. simpl obind.
    rewrite app_length in Hn. simpl in Hn.
    destruct (IH q1 (a :: l) R1) as [q2 [E2 R2]]; try lia.
    { simpl; lia. }
    exists q2. split; auto. simpl length in R2. rewrite app_length. simpl length.
    replace (S (length l) - n)%nat with (S (length l - n))%nat in R2 by lia. simpl in R2.
    replace (length l + 1 - S n)%nat with (length l - n)%nat by lia.
    rewrite skipn_app, firstn_app.
    replace (length l - n - length l)%nat with O by lia. simpl. rewrite app_nil_r, <- app_assoc.
    exact R2.
Qed.

Definition rotl (l : list A) (n : Z) : list A :=
  match l with [] => [] | _ => let k := Z.to_nat (n mod zlen l) in skipn k l ++ firstn k l end.

Lemma ring_shift q l n : ring q l -> count q = zlen (buf q) -> 0 <= n < count q ->
  ring (mkq (buf q) ((head q + n) mod zlen (buf q)) ((tail q + n) mod zlen (buf q)) (count q))
       (skipn (Z.to_nat n) l ++ firstn (Z.to_nat n) l).
Proof.
  intros [[k [Hk HC]] [HH [HT [HN [HL HG]]]]] F Hn. pose proof (pow2_ge64 k Hk).
  unfold ring; cbn [buf head tail count]. set (c := zlen (buf q)) in *.
  assert (0 <= (head q + n) mod c < c) by (apply Z.mod_pos_bound; lia).
  repeat split; try lia.
  - eauto.
  - rewrite HT. rewrite !Zplus_mod_idemp_l. f_equal. lia.
  - rewrite zlen_app, zlen_skipn, zlen_firstn. lia.
  - intros i Hi. rewrite Zplus_mod_idemp_l. rewrite zget_app, zlen_skipn.
    destruct (Z.ltb_spec i (Z.max 0 (zlen l - Z.of_nat (Z.to_nat n)))).
    + rewrite zget_skipn by lia. rewrite <- HG by lia. f_equal. f_equal. lia.
    + rewrite zget_firstn. destruct (Z.ltb_spec (i - Z.max 0 (zlen l - Z.of_nat (Z.to_nat n))) (Z.of_nat (Z.to_nat n))); try lia.
      rewrite <- HG by lia.
      replace (head q + n + i) with (head q + (i - Z.max 0 (zlen l - Z.of_nat (Z.to_nat n))) + 1 * c) by lia.
      now rewrite Z.mod_add by lia.
Qed.

Lemma rem_to_mod n c : 0 < c -> Z.rem n c <> 0 ->
  (0 < Z.rem n c < c /\ n mod c = Z.rem n c) \/ (- c < Z.rem n c < 0 /\ n mod c = Z.rem n c + c).
Proof.
  intros Hc Hn.
  pose proof (Z.quot_rem n c ltac:(lia)) as E.
  assert (n mod c = Z.rem n c mod c) as M.
  { rewrite E at 1. rewrite Z.add_comm, Z.mul_comm, Z.mod_add by lia. auto. }
  destruct (Z.le_gt_cases 0 n) as [P|P].
  - pose proof (Z.rem_bound_pos n c P Hc). left. rewrite M, Z.mod_small by lia. lia.
  - pose proof (Z.rem_bound_pos (-n) c ltac:(lia) Hc) as B.
    rewrite Z.rem_opp_l in B by lia. right. split; [lia|].
    rewrite M. rewrite <- (Z.mod_add _ 1) by lia. rewrite Z.mul_1_l. apply Z.mod_small; lia.
Qed.

Lemma Rotate_ok q l n : Rep q l -> exists q', Rotate z q n = Some q' /\ Rep q' (rotl l n).
Proof.
  intros H. pose proof (rep_len _ _ H) as HLn. unfold Rotate.
  destruct (Z.leb_spec (count q) 1) as [Hs|Hs].
  { exists q. split; auto. destruct l as [|a [|b l]]; auto.
    - unfold rotl. change (zlen [a]) with 1. rewrite Z.mod_1_r. exact H.
    - rewrite !zlen_cons in HLn. pose proof (zlen_nonneg l). lia. }
  assert (R : ring q l) by (apply rep_ring; auto; lia).
  assert (HR : rotl l n = skipn (Z.to_nat (n mod zlen l)) l ++ firstn (Z.to_nat (n mod zlen l)) l).
  { destruct l; [rewrite skipn_nil, firstn_nil|]; reflexivity. }
  rewrite HR, <- HLn. clear HR.
  destruct (Z.eqb_spec (Z.rem n (count q)) 0) as [Z0|NZ].
  { exists q. split; auto. pose proof (Z.quot_rem n (count q) ltac:(lia)) as E. rewrite Z0 in E.
    rewrite E, Z.add_0_r, Z.mul_comm, Z.mod_mul by lia. simpl. rewrite app_nil_r. auto. }
  pose proof R as [[k [Hk HC]] [HH [HT [HN [HL HG]]]]]. pose proof (pow2_ge64 k Hk).
  pose proof (rem_to_mod n (count q) ltac:(lia) NZ) as RM. set (m := Z.rem n (count q)) in *.
  rewrite mod_wrap in HT by lia.
  destruct (Z.eqb_spec (head q) (tail q)) as [Eh|Eh].
  { assert (count q = zlen (buf q)) as Full.
    { destruct (Z.ltb_spec (head q + count q) (zlen (buf q))); lia. }
    rewrite !(bmod_mod _ q k) by lia. eexists; split; [reflexivity|]. right.
    assert (Z.to_nat (n mod count q) = Z.to_nat (n mod count q)) by auto.
    destruct RM as [[B M]|[B M]].
    - rewrite M. apply ring_shift; auto; lia.
    - rewrite M.
      replace ((head q + m) mod zlen (buf q)) with ((head q + (m + count q)) mod zlen (buf q)).
      2:{ rewrite Full. replace (head q + (m + zlen (buf q))) with (head q + m + 1 * zlen (buf q)) by lia.
          now rewrite Z.mod_add by lia. }
      replace ((tail q + m) mod zlen (buf q)) with ((tail q + (m + count q)) mod zlen (buf q)).
      2:{ rewrite Full. replace (tail q + (m + zlen (buf q))) with (tail q + m + 1 * zlen (buf q)) by lia.
          now rewrite Z.mod_add by lia. }
      apply ring_shift; auto; lia. }
  assert (Free : count q < zlen (buf q)).
  { destruct (Z.ltb_spec (head q + count q) (zlen (buf q))); lia. }
  destruct (Z.ltb_spec m 0) as [Neg|Pos].
  - destruct RM as [[B M]|[B M]]; try lia.
    destruct (iter_back_ok (Z.to_nat (- m)) q l) as [q' [E R']]; auto; try (unfold zlen in *; lia).
    exists q'. split; auto. right. rewrite M.
    replace (length l - Z.to_nat (- m))%nat with (Z.to_nat (m + count q)) in R' by (unfold zlen in *; lia). auto.
  - destruct RM as [[B M]|[B M]]; try lia.
    destruct (iter_front_ok (Z.to_nat m) q l) as [q' [E R']]; auto; try (unfold zlen in *; lia).
    exists q'. split; auto. right. rewrite M. auto.
Qed.

(* ---- the refinement ---- *)
Lemma nset_split (l : list A) : forall n a, (n < length l)%nat -> nset l n a = firstn n l ++ a :: skipn (S n) l.
Proof.
  induction l as [|x l IH]; intros [|n] a H; simpl in *; try lia; auto.
  f_equal. apply IH. lia.
Qed.

Lemma rep_empty : Rep (@empty_deque A) [].
Proof. left. auto. Qed.

Lemma exec_ok o q l : Rep q l ->
  match lexec o l with
  | Some (r, l') => exists q', exec z o q = Some (r, q') /\ Rep q' l'
  | None => exec z o q = None
  end.
Proof.
  intros H. destruct o; simpl.
  - destruct (PushBack_ok q l a H) as [q' [E R]]. rewrite E. simpl. eauto.
  - destruct (PushFront_ok q l a H) as [q' [E R]]. rewrite E. simpl. eauto.
  - destruct l as [|a l].
    + unfold PopFront. rewrite (rep_len _ _ H). reflexivity.
    + destruct (PopFront_ok q a l H) as [q' [E R]]. rewrite E. simpl. eauto.
  - destruct l as [|a l _] using rev_ind.
    + simpl. unfold PopBack. rewrite (rep_len _ _ H). reflexivity.
    + rewrite rev_app_distr. simpl. rewrite rev_involutive.
      destruct (PopBack_ok q a l H) as [q' [E R]]. rewrite E. simpl. eauto.
  - rewrite (Front_ok _ _ H). destruct l; simpl; eauto.
  - rewrite (Back_ok _ _ H). destruct (rev l); simpl; eauto.
  - rewrite (At_ok _ _ _ H). unfold zget. fold (inb l i). unfold zlen. fold (inb l i).
    destruct (inb l i); simpl; auto. destruct (nth_error l (Z.to_nat i)); simpl; eauto.
  - pose proof (SetAt_ok q l i a H) as S. unfold zset in S. unfold zlen in S. fold (inb l i) in S.
    destruct (inb l i) eqn:I.
    + destruct S as [q' [E R]]. rewrite E. simpl.
      unfold inb in I. apply andb_true_iff in I as [I1 I2]. rewrite <- nset_split by lia. eauto.
    + rewrite S. auto.
  - destruct (Rotate_ok q l n H) as [q' [E R]]. rewrite E. simpl. eauto.
  - destruct (Clear_ok q l H) as [q' [E R]]. rewrite E. simpl. eauto.
  - exists q. split; auto. unfold Len. rewrite (rep_len _ _ H). auto.
Qed.

Lemma run_ok : forall ops q l, Rep q l -> run z ops q = lrun ops l.
Proof.
  induction ops as [|o ops IH]; intros q l H; simpl; auto.
  pose proof (exec_ok o q l H) as E. destruct (lexec o l) as [[r l']|].
  - destruct E as [q' [E R]]. rewrite E. f_equal. apply IH; auto.
  - rewrite E. auto.
Qed.

End Proofs.
