(* SegCut.v -- the loop of Next() calls cuts the text exactly at the breakable positions. *)
From Coq Require Import List ZArith Lia Bool.
From Verif Require Import Base RuneWrite Segmenter SegSpec PrioQProofs SegProofs SegInv SegNext.
Import ListNotations.
Open Scope Z_scope.

Lemma cut_none test : forall l o, Forall (fun a => test a = false) l -> cut test l o = [].
Proof. induction l; intros o H; simpl; auto. inversion H; subst. rewrite H2. auto. Qed.
Lemma cut_some test : forall l o a t, Forall (fun a => test a = false) l -> test a = true ->
  cut test (l ++ a :: t) o = (o ++ map ar l ++ [ar a], (ap0 a, ap1 a)) :: cut test t [].
Proof.
  induction l as [|b l IH]; intros o a t H Ha; simpl.
  - now rewrite Ha.
  - inversion H; subst. rewrite H2. rewrite IH by auto. rewrite <- !app_assoc. reflexivity.
Qed.

Lemma reach_ge m k : (1 <= k <= length m)%nat -> settled m k <= Z.of_nat (reach m).
Proof.
  intros H. unfold reach. assert (I : In k (seq 1 (length m))) by (apply in_seq; lia).
  induction (seq 1 (length m)) as [|x l IH]; simpl in *; [contradiction|].
  destruct I as [->|I]; [lia|]. specialize (IH I). lia.
Qed.
Lemma reach_in m p : (p < reach m)%nat -> exists k, (1 <= k <= length m)%nat /\ Z.of_nat p < settled m k.
Proof.
  unfold reach. assert (I : forall k, In k (seq 1 (length m)) -> (1 <= k <= length m)%nat) by (intros k Hk; apply in_seq in Hk; lia).
  induction (seq 1 (length m)) as [|x l IH]; simpl in *; [lia|]. intros H.
  destruct (le_lt_dec (Z.to_nat (settled m x)) p).
  - destruct IH as (k & A & B); [intros; apply I; auto|lia|eauto].
  - exists x. split; [apply I; auto|lia].
Qed.
Lemma settled_le m k : settled m k <= Z.of_nat k.
Proof. unfold settled. pose proof (longest_nonneg (nth (k - 1) m [])). lia. Qed.
Lemma reach_le m : (reach m <= length m)%nat.
Proof.
  destruct (le_lt_dec (reach m) (length m)); auto. exfalso.
  destruct (reach_in m (length m)) as (k & A & C); auto. pose proof (settled_le m k). lia.
Qed.

Section Cut.
Context {B : Type} (bstep : B -> Z -> B * Z * list Z).
Context (bs0 : list B) (its : list (Z * Z)) (f : error) (z0 : bool * bool).
Context (sizes1 : Forall (fun it => 1 <= snd it) its) (total : sizes its < MaxInt).
Notation SL := (state (list atom) B).
Notation OL := list_ops.
Notation rs := (rs its).
Notation ins := (ins its f).
Notation irunes := (irunes its f).
Notation mat := (mat bstep bs0 its f).
Notation N := (N its f).
Notation lam_at := (lam_at bstep bs0 its f).
Notation test0 := (test0 bs0 z0).
Notation at_ := (at_ bstep bs0 its f z0).
Notation F := (F bstep bs0 its f z0).
Notation T := (T bstep bs0 its f z0).

Definition Tf (p : nat) : bool := test0 (eff ins mat p).

Lemma settled_lam k : (1 <= k)%nat -> settled mat k = Z.of_nat k - lam_at k.
Proof. intros. unfold settled. destruct k; [lia|]. simpl. now rewrite Nat.sub_0_r. Qed.

Lemma firstn_N : firstn N mat = mat.
Proof. rewrite <- (mat_len bstep bs0 its f). apply firstn_all. Qed.

Context (conf : conforming test0 ins mat).
Lemma T_Tf k p : (k <= N)%nat -> Z.of_nat p < Z.of_nat k - lam_at k -> T k p = Tf p.
Proof.
  intros Hk Hp. unfold SegNext.T, Tf. apply conf.
  - rewrite (mat_len bstep bs0 its f). pose proof (lam_at_nonneg bstep bs0 its f k). lia.
  - rewrite settled_lam; auto. pose proof (lam_at_nonneg bstep bs0 its f k). lia.
Qed.

Notation R := (reach mat).
Definition rest (c : nat) : list atom := skipn c (firstn R (effs ins mat)).

Lemma rest_len c : length (rest c) = (R - c)%nat.
Proof.
  unfold rest. rewrite skipn_length, firstn_length, effs_len. pose proof (reach_le mat). lia.
Qed.
Lemma rest_nth c i : (c + i < R)%nat -> nth i (rest c) zeroAtom = eff ins mat (c + i).
Proof.
  intros H. pose proof (reach_le mat). unfold rest. rewrite <- (effs_nth ins mat (c + i) zeroAtom) by lia.
  rewrite <- (nth_firstn R (effs ins mat) (c + i) zeroAtom) by auto.
  generalize (firstn R (effs ins mat)). clear. induction c; intros l; simpl; auto. destruct l; simpl; auto. destruct i; auto.
Qed.
Lemma rest_skip c n : skipn n (rest c) = rest (c + n).
Proof.
  unfold rest. generalize (firstn R (effs ins mat)) as l. revert n. induction c; intros n l; simpl; auto.
  destruct l; simpl; auto. now rewrite skipn_nil.
Qed.
Lemma rest_runes c n : (c + n <= R)%nat -> map ar (firstn n (rest c)) = firstn n (skipn c irunes).
Proof.
  intros H. unfold rest. rewrite <- firstn_map, <- skipn_map, <- firstn_map.
  assert (E : map ar (effs ins mat) = irunes).
  { rewrite <- firstn_N. rewrite (effs_irunes bstep bs0 its f N) by lia. rewrite <- (irunes_len its f). apply firstn_all. }
  rewrite E, skipn_firstn_comm, firstn_firstn. f_equal. lia.
Qed.

Definition decided (k c : nat) : Prop :=
  forall j p, (j < k)%nat -> (c <= p)%nat -> Z.of_nat p < Z.of_nat j - lam_at j -> Tf p = false.

Lemma loop_cut mode : forall n k c s, at_ k c s -> holds mode rs c (rbuf s) -> (N - c < n)%nat -> decided k c ->
  (mode = None -> f = EOF /\ forall p, (p < R)%nat -> Tf p = true -> (p < length its)%nat) ->
  exists outs s', loop OL bstep n s = Ok (outs, true, s') /\
    map fst outs = map (fun x => view mode (fst x)) (cut test0 (rest c) []) /\
    (strictly_conforming ins mat -> map snd outs = map snd (cut test0 (rest c) [])) /\
    atEOF s' = true /\ (exists c', at_ N c' s') /\ (err s' = err s \/ (err s' = upd_err f (err s) /\ f <> EOF)).
Proof.
  induction n as [|n IH]; intros k c s H W Hn D M; [lia|].
  destruct (GS_bounds bstep bs0 its f z0 k c s (proj1 H)) as [C1 C2].
  assert (FR : forall k' i, (c <= k')%nat -> (k' <= N)%nat -> F k' c = Some i -> (c + i < R)%nat /\ Tf (c + i) = true).
  { intros k' i Hc Hk Fi. destruct (F_lt bstep bs0 its f z0 k' c i Fi) as [L1 L2]; auto.
    destruct (F_Some bstep bs0 its f z0 k' c i Fi) as [T1 T2]; auto. rewrite T_Tf in T1 by auto. split; auto.
    pose proof (reach_ge mat k') as X. rewrite (mat_len bstep bs0 its f) in X.
    pose proof (lam_at_nonneg bstep bs0 its f k'). rewrite settled_lam in X by lia. specialize (X ltac:(lia)). lia. }
  destruct (exec_step bstep bs0 its f z0 sizes1 total mode k c s H W) as (k' & K & J & [ST|ST]).
  { intros m. now apply M. }
  { intros m j i Hj Fi. destruct (M m) as [_ M2]. destruct (FR j i) as [X Y]; try lia; auto. specialize (M2 _ X Y). lia. }
  - destruct ST as (i & s1 & Fi & E & H1 & W1 & Er). cbn [loop]. rewrite E. cbn [rbind].
    destruct (FR k' i) as [X Y]; try lia; auto.
    destruct (F_lt bstep bs0 its f z0 k' c i Fi) as [L1 L2]; try lia.
    assert (D1 : decided k' (c + S i)).
    { intros j p Hj Hp Hs. destruct (le_lt_dec k j).
      - rewrite <- (T_Tf j) by (auto; lia). apply (F_None bstep bs0 its f z0 j c); try (apply J); lia.
      - apply (D j); auto; lia. }
    destruct (IH k' (c + S i)%nat s1 H1 W1 ltac:(lia) D1 M) as (outs & s2 & E2 & O1 & O2 & A2 & A3 & Er2).
    rewrite E2. cbn [rbind]. eexists _, s2. split; [reflexivity|].
    assert (Sp : rest c = firstn i (rest c) ++ eff ins mat (c + i) :: rest (c + S i)).
    { rewrite <- (rest_nth c i X). rewrite <- (rest_skip c (S i)). rewrite <- skipn_nth by (rewrite rest_len; lia).
      now rewrite firstn_skipn. }
    assert (Fa : Forall (fun a => test0 a = false) (firstn i (rest c))).
    { apply Forall_forall. intros a Ia. apply (In_nth _ _ zeroAtom) in Ia. destruct Ia as (j & Lj & <-).
      rewrite firstn_length, rest_len in Lj. rewrite nth_firstn by lia. rewrite rest_nth by lia.
      change (Tf (c + j) = false). rewrite <- (T_Tf k') by lia.
      destruct (F_Some bstep bs0 its f z0 k' c i Fi) as [_ T2]; try lia. apply T2. lia. }
    rewrite Sp. rewrite cut_some by auto. cbn [map fst snd]. rewrite O1.
    split.
    { f_equal. f_equal. rewrite <- (rest_runes c (S i)) by lia. rewrite (firstn_snoc (rest c) i zeroAtom) by (rewrite rest_len; lia).
      rewrite map_app. cbn [map]. rewrite rest_nth by auto. reflexivity. }
    split.
    { intros St. rewrite (O2 St). f_equal. unfold seg_pens. rewrite (St k' (c + i)%nat); auto.
      - rewrite (mat_len bstep bs0 its f). lia.
      - rewrite settled_lam by lia. lia. }
    split; [auto|]. split; [auto|]. rewrite Er in Er2. auto.
  - destruct ST as (s1 & Fn & Kn & E & A1 & H1 & Er). cbn [loop]. rewrite E. cbn [rbind]. eexists _, s1. split; [reflexivity|].
    assert (Z : cut test0 (rest c) [] = []).
    { apply cut_none. apply Forall_forall. intros a Ia. apply (In_nth _ _ zeroAtom) in Ia. destruct Ia as (j & Lj & <-).
      rewrite rest_len in Lj. rewrite rest_nth by lia. change (Tf (c + j) = false).
      destruct (reach_in mat (c + j)) as (q & Q1 & Q2); [lia|]. rewrite (mat_len bstep bs0 its f) in Q1.
      rewrite settled_lam in Q2 by lia. destruct (le_lt_dec k q).
      - rewrite <- (T_Tf q) by lia. apply (F_None bstep bs0 its f z0 q c); try lia.
        destruct (Nat.eq_dec q k') as [->|]; auto. apply J. lia.
      - apply (D q); lia. }
    rewrite Z. subst k'. split; [reflexivity|]. split; [reflexivity|]. split; [auto|]. split; [eauto|auto].
Qed.
End Cut.

(* ---- the breakers' contract ---- *)
(* Row by row: the active match grows by at most one rune at a time, and penalties never reach
   further back than the match announced before. *)
Definition obeys (m : list (list answer)) : Prop :=
  forall j, (S j < length m)%nat ->
    longest (nth (S j) m []) <= longest (nth j m []) + 1 /\
    (forall i, longest (nth j m []) < Z.of_nat i -> prim (nth (S j) m []) i = 0 /\ sec (nth (S j) m []) i = 0).

Lemma settled_mono m : obeys m -> forall k k', (1 <= k <= k')%nat -> (k' <= length m)%nat -> settled m k <= settled m k'.
Proof.
  intros H k k' H1 H2. induction k' as [|k' IH]; [lia|]. destruct (Nat.eq_dec k (S k')) as [->|]; [lia|].
  specialize (IH ltac:(lia) ltac:(lia)). destruct (H (k' - 1)%nat) as [X _]; [lia|].
  unfold settled in *. replace (S k' - 1)%nat with k' by lia. replace (S (k' - 1)) with k' in X by lia. lia.
Qed.

Lemma column_more f m i : forall n, (i <= n)%nat -> (n <= length m)%nat ->
  (forall j, (n <= j < length m)%nat -> f (nth j m []) (j - i)%nat = 0) ->
  column f (firstn n m) i = column f m i.
Proof.
  intros n Hi Hn H. remember (length m - n)%nat as r eqn:Er. revert n Hi Hn H Er.
  induction r as [|r IH]; intros n Hi Hn H Er.
  - rewrite firstn_all2 by lia. reflexivity.
  - rewrite <- (IH (S n)) by (try lia; intros; apply H; lia).
    rewrite (firstn_snoc m n []) by lia. rewrite column_snoc by (rewrite firstn_length; lia).
    rewrite firstn_length. replace (Nat.min n (length m)) with n by lia.
    rewrite (H n) by lia. lia.
Qed.

Lemma obeys_strict ins m : obeys m -> strictly_conforming ins m.
Proof.
  intros H k i Hk Hs. pose proof (settled_le m k).
  assert (X : forall j, (k <= j < length m)%nat -> prim (nth j m []) (j - i) = 0 /\ sec (nth j m []) (j - i) = 0).
  { intros j Hj. destruct (H (j - 1)%nat) as [_ Y]; [lia|]. replace (S (j - 1)) with j in Y by lia. apply Y.
    pose proof (settled_mono m H k j ltac:(lia) ltac:(lia)) as S1. unfold settled in S1, Hs. lia. }
  unfold eff. rewrite !(column_more _ m i k); auto; try lia; intros; now apply X.
Qed.
Lemma strict_conf test ins m : strictly_conforming ins m -> conforming test ins m.
Proof. intros H k i A C. now rewrite (H k i). Qed.
