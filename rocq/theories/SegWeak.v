(* SegWeak.v -- the loop of Next() calls for breakers that may still turn a settled non-break into
   a break (word and line breakers announce a longest match of 0). *)
From Coq Require Import List ZArith Lia Bool.
From Verif Require Import Base RuneWrite Segmenter SegSim SegSpec PrioQProofs SegProofs SegInv SegNext SegCut SegFacade SegTheorems SimpleWordProofs BreakSpec BreakFacade.
Import ListNotations.
Open Scope Z_scope.

(* When a settled position is found to be a break, then the verdicts up to it are final. *)
Definition weakly_conforming (test : atom -> bool) (ins : list atom) (m : list (list answer)) : Prop :=
  forall k i, (1 <= k <= length m)%nat -> Z.of_nat i < settled m k -> test (eff ins (firstn k m) i) = true ->
    forall j, (j <= i)%nat -> test (eff ins (firstn k m) j) = test (eff ins m j).

Lemma conforming_weak test ins m : conforming test ins m -> weakly_conforming test ins m.
Proof. intros C k i Hk Hs _ j Hj. apply C; auto. lia. Qed.

Section Cut.
Context {B : Type} (bstep : B -> Z -> B * Z * list Z).
Context (bs0 : list B) (its : list (Z * Z)) (f : error) (z0 : bool * bool).
Context (sizes1 : Forall (fun it => 1 <= snd it) its) (total : sizes its < MaxInt).
Notation OL := list_ops.
Notation rs := (rs its).
Notation ins := (ins its f).
Notation irunes := (irunes its f).
Notation mat := (mat bstep bs0 its f).
Notation N := (N its f).
Notation lam_at := (lam_at bstep bs0 its f).
Notation test0 := (test0 bs0 z0).
Notation at_ := (at_ bstep bs0 its f z0).
Notation F := (F bstep bs0 its f z0).
Notation T := (T bstep bs0 its f z0).
Notation Tf := (Tf bstep bs0 its f z0).
Notation R := (reach mat).
Notation rest := (rest bstep bs0 its f).

Context (weak : weakly_conforming test0 ins mat) (last1 : longest (last mat []) <= 1) (Npos : (1 <= N)%nat).

Lemma settled_N : settled mat N >= Z.of_nat N - 1.
Proof.
  unfold settled. replace (nth (N - 1) mat []) with (last mat []); [lia|].
  rewrite <- (mat_len bstep bs0 its f) in *. destruct mat as [|x t]; [simpl in Npos; lia|].
  replace (length (x :: t) - 1)%nat with (length t) by (simpl; lia). clear. revert x. induction t as [|y t IH]; intros x; [reflexivity|].
  change (last (x :: y :: t) []) with (last (y :: t) []). rewrite IH. reflexivity.
Qed.
Lemma reach_N : Z.of_nat R = settled mat N.
Proof.
  pose proof settled_N as S1. pose proof (settled_le mat N) as S2.
  pose proof (reach_ge mat N) as X. rewrite (mat_len bstep bs0 its f) in X. specialize (X ltac:(lia)).
  destruct (le_lt_dec R (Z.to_nat (settled mat N))); [lia|]. exfalso.
  destruct (reach_in mat (Z.to_nat (settled mat N))) as (k & K1 & K2); auto. rewrite (mat_len bstep bs0 its f) in K1.
  pose proof (settled_le mat k). destruct (Nat.eq_dec k N) as [->|]; lia.
Qed.

Lemma T_weak k p : (k <= N)%nat -> Z.of_nat p < Z.of_nat k - lam_at k -> T k p = true ->
  forall j, (j <= p)%nat -> T k j = Tf j.
Proof.
  intros Hk Hp Tp j Hj. unfold SegNext.T, SegCut.Tf. pose proof (lam_at_nonneg bstep bs0 its f k).
  apply (weak k p); auto; [rewrite (mat_len bstep bs0 its f); lia|]. rewrite settled_lam by lia. lia.
Qed.

Lemma loop_cut_weak mode : forall n k c s, at_ k c s -> holds mode rs c (rbuf s) -> (N - c < n)%nat ->
  (mode = None -> f = EOF /\ forall p, (p < R)%nat -> Tf p = true -> (p < length its)%nat) ->
  exists outs s', loop OL bstep n s = Ok (outs, true, s') /\
    map fst outs = map (fun x => view mode (fst x)) (cut test0 (rest c) []) /\
    atEOF s' = true /\ (exists c', at_ N c' s') /\ (err s' = err s \/ (err s' = upd_err f (err s) /\ f <> EOF)).
Proof.
  induction n as [|n IH]; intros k c s H W Hn M; [lia|].
  destruct (GS_bounds bstep bs0 its f z0 k c s (proj1 H)) as [C1 C2].
  assert (FR : forall k' i, (c <= k')%nat -> (k' <= N)%nat -> F k' c = Some i -> (c + i < R)%nat /\ Tf (c + i) = true /\
     forall j, (j < i)%nat -> Tf (c + j) = false).
  { intros k' i Hc Hk Fi. destruct (F_lt bstep bs0 its f z0 k' c i Fi) as [L1 L2]; auto.
    destruct (F_Some bstep bs0 its f z0 k' c i Fi) as [T1 T2]; auto.
    pose proof (T_weak k' (c + i) Hk L2 T1) as X. split; [|split].
    - pose proof reach_N. pose proof settled_N. pose proof (lam_at_nonneg bstep bs0 its f k').
      destruct (Nat.eq_dec k' N) as [->|]; [|lia]. rewrite settled_lam in H0 by lia. lia.
    - rewrite <- X by lia. auto.
    - intros j Hj. rewrite <- X by lia. apply T2. lia. }
  destruct (exec_step bstep bs0 its f z0 sizes1 total mode k c s H W) as (k' & K & J & [ST|ST]).
  { intros m. now apply M. }
  { intros m j i Hj Fi. destruct (M m) as [_ M2]. destruct (FR j i) as (X & Y & _); try lia; auto. specialize (M2 _ X Y). lia. }
  - destruct ST as (i & s1 & Fi & E & H1 & W1 & Er). cbn [loop]. rewrite E. cbn [rbind].
    destruct (FR k' i) as (X & Y & Y'); try lia; auto.
    destruct (F_lt bstep bs0 its f z0 k' c i Fi) as [L1 L2]; try lia.
    destruct (IH k' (c + S i)%nat s1 H1 W1 ltac:(lia) M) as (outs & s2 & E2 & O1 & A2 & A3 & Er2).
    rewrite E2. cbn [rbind]. eexists _, s2. split; [reflexivity|].
    assert (Sp : rest c = firstn i (rest c) ++ eff ins mat (c + i) :: rest (c + S i)).
    { rewrite <- (rest_nth bstep bs0 its f c i X). rewrite <- (rest_skip bstep bs0 its f c (S i)).
      rewrite <- skipn_nth by (rewrite rest_len; lia). now rewrite firstn_skipn. }
    assert (Fa : Forall (fun a => test0 a = false) (firstn i (rest c))).
    { apply Forall_forall. intros a Ia. apply (In_nth _ _ zeroAtom) in Ia. destruct Ia as (j & Lj & <-).
      rewrite firstn_length, rest_len in Lj. rewrite nth_firstn by lia. rewrite rest_nth by lia.
      apply Y'. lia. }
    rewrite Sp. rewrite cut_some by auto. cbn [map fst snd]. rewrite O1.
    split.
    { f_equal. f_equal. rewrite <- (rest_runes bstep bs0 its f c (S i)) by lia. rewrite (firstn_snoc (rest c) i zeroAtom) by (rewrite rest_len; lia).
      rewrite map_app. cbn [map]. rewrite rest_nth by auto. reflexivity. }
    split; [auto|]. split; [auto|]. rewrite Er in Er2. auto.
  - destruct ST as (s1 & Fn & Kn & E & A1 & H1 & Er). cbn [loop]. rewrite E. cbn [rbind]. eexists _, s1. split; [reflexivity|].
    subst k'.
    assert (Z : cut test0 (rest c) [] = []).
    { apply cut_none. apply Forall_forall. intros a Ia. apply (In_nth _ _ zeroAtom) in Ia. destruct Ia as (j & Lj & <-).
      rewrite rest_len in Lj. rewrite rest_nth by lia. change (Tf (c + j) = false).
      assert (EN : T N (c + j) = Tf (c + j)) by (unfold SegNext.T, SegCut.Tf; now rewrite firstn_N).
      rewrite <- EN. apply (F_None bstep bs0 its f z0 N c); try lia; auto.
      pose proof reach_N as RN. rewrite settled_lam in RN by lia. lia. }
    rewrite Z. split; [reflexivity|]. split; [auto|]. split; [eauto|auto].
Qed.
End Cut.

Section Facade.
Context {B : Type} (bstep : B -> Z -> B * Z * list Z).

Lemma weak_reader os bs s its n :
  Forall op_ok os -> history deque_ops bstep os (NewSegmenter bs) = Ok s ->
  Forall (fun it => 1 <= snd it) its -> sizes its < MaxInt ->
  weakly_conforming (test_of (boz s) (brks s)) (inputs (map fst its)) (matrix bstep (brks s) (map fst its ++ [0])) ->
  longest (last (matrix bstep (brks s) (map fst its ++ [0])) []) <= 1 -> (length its + 1 < n)%nat ->
  exists s1 outs s', Init deque_ops (mkrd its EOF) s = Ok s1 /\
    loop deque_ops bstep n s1 = Ok (outs, true, s') /\
    map fst outs = map (fun x => firstn (Z.to_nat (init_limit (rbuf s))) (fst x)) (spec_of bstep (boz s) (brks s) (map fst its)) /\
    err s' = err s.
Proof.
  intros Ho H Sz Tt Cf L1 Hn. destruct (hist_state bstep os bs s Ho H) as (t & S & Hi).
  destruct (reader_start bstep s t (mkrd its EOF) S Hi) as (s1 & t1 & I & S1 & A & C & Er). cbn [items fin] in A.
  rewrite <- (irunes_EOF its), <- (ins_EOF its) in Cf. rewrite <- (irunes_EOF its) in L1. fold (mat bstep (brks s) its EOF) in Cf, L1.
  destruct (loop_cut_weak bstep (brks s) its EOF (boz s) Sz Tt Cf L1 ltac:(rewrite N_len; lia) (Some (init_limit (rbuf s))) n 0 0 t1 A C)
    as (outs & t2 & E & O1 & _ & _ & Er2).
  { rewrite N_len. lia. }
  { discriminate. }
  destruct (loop_transfer bstep n s1 t1 _ S1 E) as (s' & E' & S'). exists s1, outs, s'. cbn [fst snd] in *.
  destruct (ssim_fields _ _ S') as (_ & _ & _ & X & _). split; [auto|]. split; [auto|]. split.
  - rewrite O1. rewrite spec_impl. rewrite <- (irunes_EOF its). reflexivity.
  - rewrite X. destruct Er2 as [->|[_ ?]]; congruence.
Qed.
Lemma weak_slice os bs s b n :
  Forall op_ok os -> history deque_ops bstep os (NewSegmenter bs) = Ok s -> zlen b < MaxInt ->
  weakly_conforming (test_of (boz s) (brks s)) (inputs b) (matrix bstep (brks s) (b ++ [0])) ->
  longest (last (matrix bstep (brks s) (b ++ [0])) []) <= 1 ->
  eot_safe (matrix bstep (brks s) (b ++ [0])) -> (length b + 1 < n)%nat ->
  exists s1 outs s', InitFromSlice deque_ops b s = Ok s1 /\ loop deque_ops bstep n s1 = Ok (outs, true, s') /\
    map fst outs = map fst (spec_of bstep (boz s) (brks s) b) /\ err s' = err s.
Proof.
  intros Ho H Tt Cf L1 Es Hn. destruct (hist_state bstep os bs s Ho H) as (t & S & Hi).
  destruct (slice_start bstep s t b S Hi) as (s1 & t1 & I & S1 & A & C & Er). destruct (ones_sizes b) as [Sz Tt'].
  rewrite <- (ones_fst b) in Cf, Es, L1. rewrite <- (irunes_EOF (ones b)) in Cf, Es, L1. rewrite <- (ins_EOF (ones b)) in Cf. fold (mat bstep (brks s) (ones b) EOF) in Cf, Es, L1.
  destruct (loop_cut_weak bstep (brks s) (ones b) EOF (boz s) Sz ltac:(rewrite Tt'; auto) Cf L1 ltac:(rewrite N_len; lia) None n 0 0 t1 A)
    as (outs & t2 & E & O1 & _ & _ & Er2).
  { unfold rs. rewrite ones_fst. exact C. }
  { rewrite N_len. unfold ones. rewrite map_length. lia. }
  { intros _. split; auto. intros p Hp Tp. pose proof (reach_le (mat bstep (brks s) (ones b) EOF)) as L.
    rewrite mat_len, N_len in L. destruct (Nat.eq_dec p (length (ones b))) as [->|]; [|lia].
    rewrite (eot_not_break bstep (brks s) (ones b) EOF (boz s) eq_refl Es) in Tp. discriminate. }
  destruct (loop_transfer bstep n s1 t1 _ S1 E) as (s' & E' & S'). exists s1, outs, s'. cbn [fst snd] in *.
  destruct (ssim_fields _ _ S') as (_ & _ & _ & X & _). split; [auto|]. split; [auto|]. split.
  - rewrite O1. rewrite spec_impl.
    replace (matrix bstep (brks s) (b ++ [0])) with (mat bstep (brks s) (ones b) EOF) by (unfold mat; rewrite irunes_EOF, ones_fst; reflexivity).
    replace (inputs b) with (ins (ones b) EOF) by (rewrite ins_EOF, ones_fst; reflexivity). reflexivity.
  - rewrite X. destruct Er2 as [->|[_ ?]]; congruence.
Qed.

(* One primary breaker in a new segmenter. *)
Section One.
Context (b : B) (text : list Z) (brk : list Z -> list Z -> bool).
Notation m := (matrix bstep [b] (text ++ [0])).
Context (Cf : weakly_conforming (breakable (false, false) false) (inputs text) m) (Es : eot_safe m) (Ll : longest (last m []) <= 1).
Context (Ht : forall j, (j < length text)%nat -> breakable (false, false) false (eff (inputs text) m j) =
     match skipn (S j) text with [] => true | t => brk (rev (firstn (S j) text)) t end).
Lemma weak_slice_segmentation n : zlen text < MaxInt -> (length text + 1 < n)%nat ->
  exists s1 outs s', InitFromSlice deque_ops text (NewSegmenter [b]) = Ok s1 /\ loop deque_ops bstep n s1 = Ok (outs, true, s') /\
    map fst outs = segmentation brk text /\ Err s' = None.
Proof.
  intros Tt Hn.
  destruct (weak_slice [] [b] _ text n (Forall_nil _) eq_refl Tt Cf Ll Es Hn) as (s1 & outs & s' & I & L & O & E).
  exists s1, outs, s'. split; auto. split; auto. split; [|unfold Err; rewrite E; reflexivity].
  rewrite O. apply spec_is_segmentation; auto.
Qed.
Lemma weak_reader_segmentation its n : map fst its = text -> Forall (fun it => 1 <= snd it) its -> sizes its < MaxInt -> (length its + 1 < n)%nat ->
  exists s1 outs s', Init deque_ops (mkrd its EOF) (NewSegmenter [b]) = Ok s1 /\ loop deque_ops bstep n s1 = Ok (outs, true, s') /\
    map fst outs = map (firstn (Z.to_nat 4096)) (segmentation brk text) /\ Err s' = None.
Proof.
  intros Et Sz Tt Hn. subst text.
  destruct (weak_reader [] [b] _ its n (Forall_nil _) eq_refl Sz Tt Cf Ll Hn) as (s1 & outs & s' & I & L & O & E).
  exists s1, outs, s'. split; auto. split; auto. split; [|unfold Err; rewrite E; reflexivity].
  rewrite O. rewrite <- (spec_is_segmentation bstep b (map fst its) brk); auto. rewrite map_map. reflexivity.
Qed.
End One.
End Facade.
