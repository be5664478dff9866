(* SegPair.v -- a segmenter with one primary and one secondary breaker: the union of two verdicts. *)
From Coq Require Import List ZArith Lia Bool.
From Verif Require Import Base RuneWrite Segmenter SegSim SegSpec PrioQProofs SegProofs SegInv SegNext SegCut SegFacade SegTheorems BreakSpec BreakFacade SegEager.
Import ListNotations.
Open Scope Z_scope.

(* V is the verdict of the answers: a test on a settled position that succeeds is right, and a test on a position of which the
   next rune was read finds the break.  The latter may fail from the second next rune on where [hot]. *)
Definition test_after (text : list Z) (an : list answer) (k i : nat) : bool := breakable (false, false) false (eff (inputs text) (map row1 (firstn k an)) i).
Definition lam_after (an : list answer) (k : nat) : Z := match k with O => 0 | S j => Z.max (fst (nth j an (0, []))) 0 end.
Record decides (text : list Z) (an : list answer) (V hot : nat -> bool) : Prop := mkdecides {
  d_len : length an = S (length text);
  d_true : forall k i, (k <= length an)%nat -> (i < length text)%nat -> Z.of_nat i < Z.of_nat k - lam_after an k -> test_after text an k i = true -> V i = true;
  d_finds : forall k i, (S (S i) <= k)%nat -> (k <= length an)%nat -> Z.of_nat i < Z.of_nat k - lam_after an k -> (k = S (S i) \/ hot i = false) ->
    V i = true -> test_after text an k i = true;
  d_hot : forall i, (S i < length an)%nat -> hot i = true -> lam_after an (S (S i)) <= 1;
  d_last : lam_after an (length an) <= 1 }.

Section Pair.
Context {B : Type} (bstep : B -> Z -> B * Z * list Z) (p s : B).
Definition row2 (ab : answer * answer) : list answer := [fst ab; snd ab].
Lemma matrix_two : forall rs p s, matrix bstep [p; s] rs = map row2 (combine (answers bstep p rs) (answers bstep s rs)).
Proof.
  induction rs as [|r rs IH]; intros p' s'; [reflexivity|]. cbn [matrix answers]. unfold bs_out, bs_next. cbn [map].
  destruct (bstep p' r) as ((p1 & l1) & ps1). destruct (bstep s' r) as ((s1 & l2) & ps2).
  cbn [combine map fst snd]. rewrite <- IH. reflexivity.
Qed.
Lemma longest_two ab : longest (row2 ab) = Z.max (Z.max (fst (fst ab)) 0) (Z.max (fst (snd ab)) 0).
Proof. unfold longest, row2. cbn. lia. Qed.
Lemma nth_row2 (l1 l2 : list answer) j k : length l1 = length l2 ->
  nth j (map row2 (combine (firstn k l1) (firstn k l2))) [] = if (j <? length (firstn k l1))%nat then row2 (nth j (firstn k l1) (0, []), nth j (firstn k l2) (0, [])) else [].
Proof.
  intros L. assert (Lf : length (firstn k l1) = length (firstn k l2)) by (rewrite !firstn_length; lia).
  destruct (Nat.ltb_spec j (length (firstn k l1))).
  - rewrite (nth_indep _ [] (row2 ((0, []), (0, [])))) by (rewrite map_length, combine_length; lia). rewrite map_nth, combine_nth by auto. reflexivity.
  - apply nth_overflow. rewrite map_length, combine_length. lia.
Qed.
Lemma test_two text (l1 l2 : list answer) k i : length l1 = length l2 ->
  breakable (false, false) true (eff (inputs text) (firstn k (map row2 (combine l1 l2))) i) = test_after text l1 k i || test_after text l2 k i.
Proof.
  intros L. unfold test_after. rewrite firstn_map, combine_firstn.
  assert (Lf : length (firstn k l1) = length (firstn k l2)) by (rewrite !firstn_length; lia).
  assert (R1 : forall (l : list answer) j, nth j (map row1 l) [] = if (j <? length l)%nat then row1 (nth j l (0, [])) else []).
  { intros l j. destruct (Nat.ltb_spec j (length l)).
    - rewrite (nth_indep _ [] (row1 (0, []))) by (rewrite map_length; lia). apply map_nth.
    - apply nth_overflow. rewrite map_length. lia. }
  assert (P : column prim (map row2 (combine (firstn k l1) (firstn k l2))) i = column prim (map row1 (firstn k l1)) i).
  { unfold column. rewrite !map_length, combine_length. replace (Nat.min (length (firstn k l1)) (length (firstn k l2))) with (length (firstn k l1)) by lia.
    f_equal. apply map_ext. intros j. rewrite nth_row2, R1 by auto. destruct (_ <? _)%nat; reflexivity. }
  assert (Q : column sec (map row2 (combine (firstn k l1) (firstn k l2))) i = column prim (map row1 (firstn k l2)) i).
  { unfold column. rewrite !map_length, combine_length. replace (Nat.min (length (firstn k l1)) (length (firstn k l2))) with (length (firstn k l2)) by lia.
    f_equal. apply map_ext. intros j. rewrite nth_row2, R1 by auto. rewrite Lf. destruct (_ <? _)%nat; [|reflexivity].
    unfold row2, sec, row1, prim. cbn. lia. }
  assert (E : forall j, ap1 (nth j (inputs text) zeroAtom) = ap0 (nth j (inputs text) zeroAtom)).
  { unfold inputs. generalize text. clear. intros l. induction l as [|x l IH]; intros j; [destruct j as [|[|j]]; reflexivity|]. destruct j; [reflexivity|]. apply IH. }
  unfold breakable, eff. cbn [fst snd ap0 ap1]. rewrite P, Q, E. rewrite !andb_false_l, !orb_false_r. reflexivity.
Qed.

Section Text.
Context (its : list (Z * Z)).
Notation text := (map fst its).
Notation an1 := (answers bstep p (text ++ [0])).
Notation an2 := (answers bstep s (text ++ [0])).
Context (V1 V2 hot1 hot2 : nat -> bool).
Context (D1 : decides text an1 V1 hot1) (D2 : decides text an2 V2 hot2).
Context (Hl : Forall (fun a : answer => 1 <= fst a) an1 \/ Forall (fun a : answer => 1 <= fst a) an2).
Context (H12 : forall i, (S i < length text)%nat -> hot1 i = true -> lam_after an2 (S (S i)) <= 1).
Context (H21 : forall i, (S i < length text)%nat -> hot2 i = true -> lam_after an1 (S (S i)) <= 1).
Definition V (i : nat) : bool := V1 i || V2 i.

Lemma lens : length an1 = length an2.
Proof. rewrite (d_len _ _ _ _ D1), (d_len _ _ _ _ D2). reflexivity. Qed.
Lemma mat_two : mat bstep [p; s] its EOF = map row2 (combine an1 an2).
Proof. unfold mat. rewrite irunes_EOF. apply matrix_two. Qed.
Lemma N_two : N its EOF = S (length text).
Proof. rewrite N_len, map_length. lia. Qed.
Lemma lam_two k : (k <= S (length text))%nat -> lam_at bstep [p; s] its EOF k = Z.max (lam_after an1 k) (lam_after an2 k).
Proof.
  intros Hk. destruct k as [|j]; [reflexivity|]. cbn [lam_at lam_after]. rewrite mat_two.
  rewrite (nth_indep _ [] (row2 ((0, []), (0, [])))) by (rewrite map_length, combine_length, <- lens, (d_len _ _ _ _ D1); lia).
  rewrite map_nth, combine_nth by apply lens. apply longest_two.
Qed.
Lemma lam_pos k : (1 <= k <= S (length text))%nat -> 1 <= Z.max (lam_after an1 k) (lam_after an2 k).
Proof.
  intros Hk. destruct k as [|j]; [lia|]. cbn [lam_after].
  destruct Hl as [H|H]; rewrite Forall_forall in H.
  - pose proof (H (nth j an1 (0, [])) ltac:(apply nth_In; rewrite (d_len _ _ _ _ D1); lia)). lia.
  - pose proof (H (nth j an2 (0, [])) ltac:(apply nth_In; rewrite (d_len _ _ _ _ D2); lia)). lia.
Qed.
Lemma T_two k i : T bstep [p; s] its EOF (false, false) k i = test_after text an1 k i || test_after text an2 k i.
Proof. unfold T, test0. rewrite mat_two, ins_EOF. apply test_two, lens. Qed.

Lemma eager_two : eager bstep [p; s] its (false, false) V.
Proof.
  pose proof (d_len _ _ _ _ D1) as L1. pose proof (d_len _ _ _ _ D2) as L2. split.
  - intros k i Hk Sp Tp. rewrite N_two in Hk. unfold settles in Sp. rewrite lam_two in Sp by auto. rewrite T_two in Tp. unfold V.
    assert (Hi : (i < length text)%nat).
    { destruct k as [|k]; [cbn in Sp; lia|]. pose proof (lam_pos (S k) ltac:(lia)). lia. }
    apply orb_prop in Tp. apply orb_true_iff. destruct Tp as [Tp|Tp]; [left|right].
    + apply (d_true _ _ _ _ D1 k i); auto; lia.
    + apply (d_true _ _ _ _ D2 k i); auto; lia.
  - intros k i Hk Sp Mn Vp. rewrite N_two in Hk. unfold settles in Sp. rewrite lam_two in Sp by auto. rewrite T_two.
    assert (Hi : (S (S i) <= k)%nat).
    { destruct k as [|k]; [cbn in Sp; lia|]. pose proof (lam_pos (S k) ltac:(lia)). lia. }
    assert (Mn' : forall j, (j < k)%nat -> Z.of_nat i < Z.of_nat j - Z.max (lam_after an1 j) (lam_after an2 j) -> False).
    { intros j Hj Sj. apply (Mn j Hj). unfold settles. rewrite lam_two by lia. exact Sj. }
    apply orb_prop in Vp. apply orb_true_iff. destruct Vp as [Vp|Vp]; [left|right].
    + apply (d_finds _ _ _ _ D1); auto; try lia. destruct (hot1 i) eqn:E; [left|auto]. destruct (Nat.eq_dec k (S (S i))) as [|Nk]; [auto|]. exfalso.
      apply (Mn' (S (S i))); [lia|]. pose proof (d_hot _ _ _ _ D1 i ltac:(lia) E). pose proof (H12 i ltac:(lia) E). lia.
    + apply (d_finds _ _ _ _ D2); auto; try lia. destruct (hot2 i) eqn:E; [left|auto]. destruct (Nat.eq_dec k (S (S i))) as [|Nk]; [auto|]. exfalso.
      apply (Mn' (S (S i))); [lia|]. pose proof (d_hot _ _ _ _ D2 i ltac:(lia) E). pose proof (H21 i ltac:(lia) E). lia.
Qed.
Lemma lam_ge_two k : (1 <= k <= N its EOF)%nat -> 1 <= lam_at bstep [p; s] its EOF k.
Proof. intros Hk. rewrite N_two in Hk. rewrite lam_two by lia. apply lam_pos. lia. Qed.
Lemma lam_last_two : lam_at bstep [p; s] its EOF (N its EOF) <= 1.
Proof.
  rewrite N_two, lam_two by lia. pose proof (d_last _ _ _ _ D1) as A. pose proof (d_last _ _ _ _ D2) as C.
  rewrite (d_len _ _ _ _ D1) in A. rewrite (d_len _ _ _ _ D2) in C. lia.
Qed.
Context (brk1 brk2 : list Z -> list Z -> bool).
Context (Hb1 : forall j, (j < length text)%nat -> V1 j = match skipn (S j) text with [] => true | t => brk1 (rev (firstn (S j) text)) t end).
Context (Hb2 : forall j, (j < length text)%nat -> V2 j = match skipn (S j) text with [] => true | t => brk2 (rev (firstn (S j) text)) t end).
Lemma vcut_two : vcut V 0 text [] = segmentation (fun l r => brk1 l r || brk2 l r) text.
Proof.
  unfold segmentation. change 0%nat with (length (@nil Z)). apply vcut_split. intros j Hj. rewrite app_nil_r. cbn [length Nat.add]. unfold V.
  rewrite Hb1, Hb2 by auto. destruct (skipn (S j) text); reflexivity.
Qed.
Lemma pair_reader n : Forall (fun it => 1 <= snd it) its -> sizes its < MaxInt -> (length its + 1 < n)%nat ->
  exists s1 outs s', Init deque_ops (mkrd its EOF) (NewSegmenter [p; s]) = Ok s1 /\ loop deque_ops bstep n s1 = Ok (outs, true, s') /\
    map fst outs = map (firstn (Z.to_nat 4096)) (segmentation (fun l r => brk1 l r || brk2 l r) text) /\ Err s' = None.
Proof.
  intros Sz Tt Hn. destruct (hist_state bstep [] [p; s] _ (Forall_nil _) eq_refl) as (t & S & Hi).
  destruct (reader_start bstep _ t (mkrd its EOF) S Hi) as (s1 & t1 & I & S1 & A & C & Er). cbn [items fin] in A.
  destruct (loop_eager bstep [p; s] its (false, false) Sz Tt V eager_two lam_ge_two lam_last_two (Some 4096) n 0 0 t1 A C)
    as (outs & t2 & E & O1 & Er2).
  { rewrite N_len. lia. }
  { intros q j Hp Hj. lia. }
  destruct (loop_transfer bstep n s1 t1 _ S1 E) as (s' & E' & S'). exists s1, outs, s'. cbn [fst snd] in *.
  destruct (ssim_fields _ _ S') as (_ & _ & _ & X & _). split; [auto|]. split; [auto|]. split.
  - rewrite O1. cbn [skipn]. change (rs its) with text. rewrite vcut_two. reflexivity.
  - unfold Err. rewrite X, Er2, Er. reflexivity.
Qed.
End Text.

Lemma pair_slice text V1 V2 hot1 hot2 brk1 brk2 n : zlen text < MaxInt -> (length text + 1 < n)%nat ->
  let an1 := answers bstep p (text ++ [0]) in let an2 := answers bstep s (text ++ [0]) in
  decides text an1 V1 hot1 -> decides text an2 V2 hot2 ->
  Forall (fun a : answer => 1 <= fst a) an1 \/ Forall (fun a : answer => 1 <= fst a) an2 ->
  (forall i, (S i < length text)%nat -> hot1 i = true -> lam_after an2 (S (S i)) <= 1) ->
  (forall i, (S i < length text)%nat -> hot2 i = true -> lam_after an1 (S (S i)) <= 1) ->
  (forall j, (j < length text)%nat -> V1 j = match skipn (S j) text with [] => true | t => brk1 (rev (firstn (S j) text)) t end) ->
  (forall j, (j < length text)%nat -> V2 j = match skipn (S j) text with [] => true | t => brk2 (rev (firstn (S j) text)) t end) ->
  exists s1 outs s', InitFromSlice deque_ops text (NewSegmenter [p; s]) = Ok s1 /\ loop deque_ops bstep n s1 = Ok (outs, true, s') /\
    map fst outs = segmentation (fun l r => brk1 l r || brk2 l r) text /\ Err s' = None.
Proof.
  cbv zeta. intros Tt Hn D1 D2 Hl H12 H21 Hb1 Hb2. destruct (hist_state bstep [] [p; s] _ (Forall_nil _) eq_refl) as (t & S & Hi).
  destruct (slice_start bstep _ t text S Hi) as (s1 & t1 & I & S1 & A & C & Er). destruct (ones_sizes text) as [Sz Tt'].
  rewrite <- (ones_fst text) in D1, D2, Hl, H12, H21, Hb1, Hb2.
  destruct (loop_eager bstep [p; s] (ones text) (false, false) Sz ltac:(rewrite Tt'; auto) (V V1 V2) (eager_two _ _ _ _ _ D1 D2 Hl H12 H21)
    (lam_ge_two _ _ _ _ _ D1 D2 Hl) (lam_last_two _ _ _ _ _ D1 D2) None n 0 0 t1 A)
    as (outs & t2 & E & O1 & Er2).
  { unfold rs. rewrite ones_fst. exact C. }
  { rewrite N_len. unfold ones. rewrite map_length. lia. }
  { intros q j Hp Hj. lia. }
  destruct (loop_transfer bstep n s1 t1 _ S1 E) as (s' & E' & S'). exists s1, outs, s'. cbn [fst snd] in *.
  destruct (ssim_fields _ _ S') as (_ & _ & _ & X & _). split; [auto|]. split; [auto|]. split.
  - rewrite O1. cbn [skipn]. change (rs (ones text)) with (map fst (ones text)). rewrite (vcut_two _ _ _ _ _ Hb1 Hb2). rewrite ones_fst.
    cbn [view]. apply map_id.
  - unfold Err. rewrite X, Er2, Er. reflexivity.
Qed.
End Pair.
