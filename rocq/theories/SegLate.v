(* SegLate.v -- two breakers of which neither need keep the last rune open: a break is found at the latest when the next rune was read. *)
From Coq Require Import List ZArith Lia Bool.
From Verif Require Import Base RuneWrite Segmenter SegSim SegSpec PrioQProofs SegProofs SegInv SegNext SegCut SegFacade SegTheorems BreakSpec BreakFacade SegEager SegPair.
Import ListNotations.
Open Scope Z_scope.

Section Late.
Context {B : Type} (bstep : B -> Z -> B * Z * list Z).
Context (bs0 : list B) (its : list (Z * Z)) (z0 : bool * bool).
Context (sizes1 : Forall (fun it => 1 <= snd it) its) (total : sizes its < MaxInt).
Notation OL := list_ops.
Notation rs := (rs its).
Notation N := (N its EOF).
Notation lam_at := (lam_at bstep bs0 its EOF).
Notation at_ := (at_ bstep bs0 its EOF z0).
Notation F := (F bstep bs0 its EOF z0).
Notation T := (T bstep bs0 its EOF z0).
Notation settles := (settles bstep bs0 its).

Definition late (V : nat -> bool) : Prop :=
  (forall k p, (k <= N)%nat -> settles k p -> T k p = true -> (p < length its)%nat /\ V p = true) /\
  (forall k p, (k <= N)%nat -> settles k p -> (S (S p) <= k)%nat -> V p = true -> T k p = true).
Context (V : nat -> bool) (HV : late V) (lamN : lam_at N <= 1).

Lemma loop_late mode : forall n k c s, at_ k c s -> holds mode rs c (rbuf s) -> (N - c < n)%nat ->
  exists outs s', loop OL bstep n s = Ok (outs, true, s') /\
    map fst outs = map (view mode) (vcut V c (skipn c rs) []) /\ err s' = err s.
Proof.
  assert (EN : N = S (length its)) by (rewrite N_len; lia).
  induction n as [|n IH]; intros k c s H W Hn; [lia|].
  destruct (GS_bounds bstep bs0 its EOF z0 k c s (proj1 H)) as [C1 C2].
  assert (Lim : forall j i, (c <= j)%nat -> (j <= N)%nat -> F j c = Some i -> (c + i < length its)%nat).
  { intros j i Hc Hj Fi. destruct (F_lt bstep bs0 its EOF z0 j c i Fi) as [L1 L2]; auto.
    destruct (F_Some bstep bs0 its EOF z0 j c i Fi) as [T1 _]; auto. apply (proj1 HV j (c + i)%nat); auto. }
  assert (Lrs : length rs = length its) by (unfold SegInv.rs; apply map_length).
  destruct (exec_step bstep bs0 its EOF z0 sizes1 total mode k c s H W) as (k' & K & J & [ST|ST]).
  { auto. }
  { intros _ j i Hj Fi. specialize (Lim j i ltac:(lia) ltac:(lia) Fi). lia. }
  - destruct ST as (i & s1 & Fi & E & H1 & W1 & Er). cbn [loop]. rewrite E. cbn [rbind].
    destruct (F_Some bstep bs0 its EOF z0 k' c i Fi) as [T1 T2]; try lia.
    destruct (F_lt bstep bs0 its EOF z0 k' c i Fi) as [L1 L2]; try lia. pose proof (Lim k' i ltac:(lia) ltac:(lia) Fi) as Li.
    destruct (IH k' (c + S i)%nat s1 H1 W1) as (outs & s2 & E2 & O1 & Er2); [lia|].
    rewrite E2. cbn [rbind]. eexists _, s2. split; [reflexivity|]. split; [|congruence].
    pose proof (lam_at_nonneg bstep bs0 its EOF k') as Ln.
    cbn [map fst]. rewrite O1. rewrite (vcut_some V _ c i).
    + cbn [map app]. f_equal; [f_equal|].
      * unfold SegInv.irunes, SegInv.ins. rewrite map_app, map_map. cbn [ar]. rewrite map_id. rewrite skipn_app, firstn_app.
        replace (S i - length (skipn c rs))%nat with 0%nat by (rewrite skipn_length; lia). now rewrite firstn_O, app_nil_r.
      * f_equal. f_equal. clear. revert c. generalize rs as l. induction l as [|a l IHl]; intros c.
        { now rewrite !skipn_nil. } destruct c; [reflexivity|]. cbn [skipn Nat.add]. apply IHl.
    + rewrite skipn_length. lia.
    + intros j Hj. destruct (V (c + j)) eqn:Ev; auto. rewrite <- (T2 (c + j)%nat) by lia. symmetry. apply (proj2 HV k'); auto; try lia. unfold SegEager.settles. lia.
    + apply (proj1 HV k'); auto. lia.
  - destruct ST as (s1 & Fn & Kn & E & A1 & H1 & Er). cbn [loop]. rewrite E. cbn [rbind]. eexists _, s1. split; [reflexivity|]. subst k'.
    split; [|destruct Er as [Er|[_ Er]]; congruence].
    rewrite vcut_none; [reflexivity|]. intros j Hj. rewrite skipn_length in Hj.
    assert (Sj : settles N (c + j)) by (unfold SegEager.settles; lia).
    destruct (V (c + j)) eqn:Ev; auto. rewrite <- (F_None bstep bs0 its EOF z0 N c Fn ltac:(lia) ltac:(lia) (c + j)%nat ltac:(lia) Sj).
    symmetry. apply (proj2 HV); auto. lia.
Qed.
End Late.

(* the first penalty of the last answer, for the end of the text *)
Definition eot_answer (an : list answer) : Prop := 0 <= hd 0 (snd (last an (0, []))).

Section Pair.
Context {B : Type} (bstep : B -> Z -> B * Z * list Z) (p s : B).
Lemma last_two : forall (l1 l2 : list answer), length l1 = length l2 -> l1 <> [] -> last (map row2 (combine l1 l2)) [] = row2 (last l1 (0, []), last l2 (0, [])).
Proof.
  induction l1 as [|a l1 IH]; intros [|b l2] L N; try discriminate; [congruence|]. destruct l1 as [|a' l1], l2 as [|b' l2]; try discriminate; [reflexivity|].
  change (last (map row2 (combine (a :: a' :: l1) (b :: b' :: l2))) []) with (last (map row2 (combine (a' :: l1) (b' :: l2))) []).
  rewrite IH; [reflexivity|simpl in *; lia|discriminate].
Qed.

Section Text.
Context (its : list (Z * Z)).
Notation text := (map fst its).
Notation an1 := (answers bstep p (text ++ [0])).
Notation an2 := (answers bstep s (text ++ [0])).
Context (V1 V2 : nat -> bool).
Context (D1 : decides text an1 V1 (fun _ => false)) (D2 : decides text an2 V2 (fun _ => false)) (E1 : eot_answer an1) (E2 : eot_answer an2).

Lemma eot_two : eot_safe (mat bstep [p; s] its EOF).
Proof.
  rewrite mat_two. unfold eot_safe. rewrite last_two; [|eapply lens; eauto|].
  - unfold eot_answer in *. unfold row2, prim, sec. cbn [fst snd tl map fold_right]. rewrite Z.add_0_r.
    destruct (snd (last an1 (0, []))), (snd (last an2 (0, []))); cbn in *; lia.
  - intros X. pose proof (d_len _ _ _ _ D1) as L. rewrite X in L. discriminate.
Qed.
Lemma late_two : late bstep [p; s] its (false, false) (V V1 V2).
Proof.
  pose proof (d_len _ _ _ _ D1) as L1. pose proof (d_len _ _ _ _ D2) as L2. split.
  - intros k i Hk Sp Tp. rewrite N_two in Hk. unfold settles in Sp. pose proof (lam_at_nonneg bstep [p; s] its EOF k) as Ln.
    assert (Hi : (i < length text)%nat).
    { destruct (Nat.eq_dec i (length its)) as [->|Ne]; [|rewrite map_length in *; lia]. exfalso.
      assert (k = N its EOF) by (rewrite N_two, map_length in *; lia). subst k.
      pose proof (eot_not_break bstep [p; s] its EOF (false, false) eq_refl eot_two) as X. unfold SegCut.Tf in X. unfold T in Tp. rewrite firstn_N in Tp. congruence. }
    split; [now rewrite map_length in Hi|]. rewrite (lam_two bstep p s its _ _ _ _ D1 D2) in Sp by auto. rewrite (T_two bstep p s its _ _ _ _ D1 D2) in Tp. unfold V.
    apply orb_prop in Tp. apply orb_true_iff. destruct Tp as [Tp|Tp]; [left|right].
    + apply (d_true _ _ _ _ D1 k i); auto; lia.
    + apply (d_true _ _ _ _ D2 k i); auto; lia.
  - intros k i Hk Sp Hi Vp. rewrite N_two in Hk. unfold settles in Sp. rewrite (lam_two bstep p s its _ _ _ _ D1 D2) in Sp by auto. rewrite (T_two bstep p s its _ _ _ _ D1 D2).
    apply orb_prop in Vp. apply orb_true_iff. destruct Vp as [Vp|Vp]; [left|right].
    + apply (d_finds _ _ _ _ D1); auto; lia.
    + apply (d_finds _ _ _ _ D2); auto; lia.
Qed.
Context (brk1 brk2 : list Z -> list Z -> bool).
Context (Hb1 : forall j, (j < length text)%nat -> V1 j = match skipn (S j) text with [] => true | t => brk1 (rev (firstn (S j) text)) t end).
Context (Hb2 : forall j, (j < length text)%nat -> V2 j = match skipn (S j) text with [] => true | t => brk2 (rev (firstn (S j) text)) t end).
Lemma late_reader n : Forall (fun it => 1 <= snd it) its -> sizes its < MaxInt -> (length its + 1 < n)%nat ->
  exists s1 outs s', Init deque_ops (mkrd its EOF) (NewSegmenter [p; s]) = Ok s1 /\ loop deque_ops bstep n s1 = Ok (outs, true, s') /\
    map fst outs = map (firstn (Z.to_nat 4096)) (segmentation (fun l r => brk1 l r || brk2 l r) text) /\ Err s' = None.
Proof.
  intros Sz Tt Hn. destruct (hist_state bstep [] [p; s] _ (Forall_nil _) eq_refl) as (t & S & Hi).
  destruct (reader_start bstep _ t (mkrd its EOF) S Hi) as (s1 & t1 & I & S1 & A & C & Er). cbn [items fin] in A.
  destruct (loop_late bstep [p; s] its (false, false) Sz Tt _ late_two (lam_last_two bstep p s its _ _ _ _ D1 D2) (Some 4096) n 0 0 t1 A C)
    as (outs & t2 & E & O1 & Er2).
  { rewrite N_len. lia. }
  destruct (loop_transfer bstep n s1 t1 _ S1 E) as (s' & E' & S'). exists s1, outs, s'. cbn [fst snd] in *.
  destruct (ssim_fields _ _ S') as (_ & _ & _ & X & _). split; [auto|]. split; [auto|]. split.
  - rewrite O1. cbn [skipn]. change (rs its) with text. rewrite (vcut_two _ _ _ _ _ Hb1 Hb2). reflexivity.
  - unfold Err. rewrite X, Er2, Er. reflexivity.
Qed.
End Text.

Lemma late_slice text V1 V2 brk1 brk2 n : zlen text < MaxInt -> (length text + 1 < n)%nat ->
  let an1 := answers bstep p (text ++ [0]) in let an2 := answers bstep s (text ++ [0]) in
  decides text an1 V1 (fun _ => false) -> decides text an2 V2 (fun _ => false) -> eot_answer an1 -> eot_answer an2 ->
  (forall j, (j < length text)%nat -> V1 j = match skipn (S j) text with [] => true | t => brk1 (rev (firstn (S j) text)) t end) ->
  (forall j, (j < length text)%nat -> V2 j = match skipn (S j) text with [] => true | t => brk2 (rev (firstn (S j) text)) t end) ->
  exists s1 outs s', InitFromSlice deque_ops text (NewSegmenter [p; s]) = Ok s1 /\ loop deque_ops bstep n s1 = Ok (outs, true, s') /\
    map fst outs = segmentation (fun l r => brk1 l r || brk2 l r) text /\ Err s' = None.
Proof.
  cbv zeta. intros Tt Hn D1 D2 E1 E2 Hb1 Hb2. destruct (hist_state bstep [] [p; s] _ (Forall_nil _) eq_refl) as (t & S & Hi).
  destruct (slice_start bstep _ t text S Hi) as (s1 & t1 & I & S1 & A & C & Er). destruct (ones_sizes text) as [Sz Tt'].
  rewrite <- (ones_fst text) in D1, D2, E1, E2, Hb1, Hb2.
  destruct (loop_late bstep [p; s] (ones text) (false, false) Sz ltac:(rewrite Tt'; auto) (V V1 V2) (late_two _ _ _ D1 D2 E1 E2)
    (lam_last_two _ _ _ _ _ _ _ _ D1 D2) None n 0 0 t1 A)
    as (outs & t2 & E & O1 & Er2).
  { unfold rs. rewrite ones_fst. exact C. }
  { rewrite N_len. unfold ones. rewrite map_length. lia. }
  destruct (loop_transfer bstep n s1 t1 _ S1 E) as (s' & E' & S'). exists s1, outs, s'. cbn [fst snd] in *.
  destruct (ssim_fields _ _ S') as (_ & _ & _ & X & _). split; [auto|]. split; [auto|]. split.
  - rewrite O1. cbn [skipn]. change (rs (ones text)) with (map fst (ones text)). rewrite (vcut_two _ _ _ _ _ Hb1 Hb2). rewrite ones_fst.
    cbn [view]. apply map_id.
  - unfold Err. rewrite X, Er2, Er. reflexivity.
Qed.
End Pair.
