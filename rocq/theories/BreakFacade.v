(* BreakFacade.v -- the segmenter with one breaker realises a segmentation given by a boundary
   predicate, when the breaker's penalties agree with the predicate. *)
From Coq Require Import List ZArith Lia Bool.
From Verif Require Import Base RuneWrite Segmenter SegSim SegSpec SegProofs SegInv SegNext SegCut SegFacade SegTheorems SimpleWordProofs BreakSpec.
From Verif Require Deque.
Import ListNotations.
Open Scope Z_scope.

Section Facade.
Context {B : Type} (bstep : B -> Z -> B * Z * list Z).
Local Notation OD := (@deque_ops atom).
Local Notation SD := (@state B (@Deque.deque atom)).

(* Texts for merely conforming breakers. *)
Lemma reader_texts os bs s its n :
  Forall op_ok os -> history deque_ops bstep os (NewSegmenter bs) = Ok s ->
  Forall (fun it => 1 <= snd it) its -> sizes its < MaxInt ->
  conforming (test_of (boz s) (brks s)) (inputs (map fst its)) (matrix bstep (brks s) (map fst its ++ [0])) -> (length its + 1 < n)%nat ->
  exists s1 outs s', Init deque_ops (mkrd its EOF) s = Ok s1 /\
    loop deque_ops bstep n s1 = Ok (outs, true, s') /\
    map fst outs = map (fun x => firstn (Z.to_nat (init_limit (rbuf s))) (fst x)) (spec_of bstep (boz s) (brks s) (map fst its)) /\
    err s' = err s.
Proof.
  intros Ho H Sz Tt Cf Hn. destruct (hist_state bstep os bs s Ho H) as (t & S & Hi).
  destruct (reader_start bstep s t (mkrd its EOF) S Hi) as (s1 & t1 & I & S1 & A & C & Er). cbn [items fin] in A.
  rewrite <- (irunes_EOF its), <- (ins_EOF its) in Cf. fold (mat bstep (brks s) its EOF) in Cf.
  destruct (loop_cut bstep (brks s) its EOF (boz s) Sz Tt Cf (Some (init_limit (rbuf s))) n 0 0 t1 A C)
    as (outs & t2 & E & O1 & O2 & _ & _ & Er2).
  { rewrite N_len. lia. }
  { intros j p Hj. lia. }
  { discriminate. }
  destruct (loop_transfer bstep n s1 t1 _ S1 E) as (s' & E' & S'). exists s1, outs, s'. cbn [fst snd] in *.
  destruct (ssim_fields _ _ S') as (_ & _ & _ & X & _). split; [auto|]. split; [auto|]. split.
  - rewrite O1. rewrite spec_impl. rewrite <- (irunes_EOF its). reflexivity.
  - rewrite X. destruct Er2 as [->|[_ ?]]; congruence.
Qed.
Lemma slice_texts os bs s b n :
  Forall op_ok os -> history deque_ops bstep os (NewSegmenter bs) = Ok s -> zlen b < MaxInt ->
  conforming (test_of (boz s) (brks s)) (inputs b) (matrix bstep (brks s) (b ++ [0])) ->
  eot_safe (matrix bstep (brks s) (b ++ [0])) -> (length b + 1 < n)%nat ->
  exists s1 outs s', InitFromSlice deque_ops b s = Ok s1 /\ loop deque_ops bstep n s1 = Ok (outs, true, s') /\
    map fst outs = map fst (spec_of bstep (boz s) (brks s) b) /\ err s' = err s.
Proof.
  intros Ho H Tt Cf Es Hn. destruct (hist_state bstep os bs s Ho H) as (t & S & Hi).
  destruct (slice_start bstep s t b S Hi) as (s1 & t1 & I & S1 & A & C & Er). destruct (ones_sizes b) as [Sz Tt'].
  rewrite <- (ones_fst b) in Cf, Es. rewrite <- (irunes_EOF (ones b)) in Cf, Es. rewrite <- (ins_EOF (ones b)) in Cf. fold (mat bstep (brks s) (ones b) EOF) in Cf, Es.
  destruct (loop_cut bstep (brks s) (ones b) EOF (boz s) Sz ltac:(rewrite Tt'; auto) Cf None n 0 0 t1 A)
    as (outs & t2 & E & O1 & O2 & _ & _ & Er2).
  { unfold rs. rewrite ones_fst. exact C. }
  { rewrite N_len. unfold ones. rewrite map_length. lia. }
  { intros j p Hj. lia. }
  { intros _. split; auto. intros p Hp Tp. pose proof (reach_le (mat bstep (brks s) (ones b) EOF)) as L.
    rewrite mat_len, N_len in L. destruct (Nat.eq_dec p (length (ones b))) as [->|]; [|lia].
    rewrite (eot_not_break bstep (brks s) (ones b) EOF (boz s) eq_refl Es) in Tp. discriminate. }
  destruct (loop_transfer bstep n s1 t1 _ S1 E) as (s' & E' & S'). exists s1, outs, s'. cbn [fst snd] in *.
  destruct (ssim_fields _ _ S') as (_ & _ & _ & X & _). split; [auto|]. split; [auto|]. split.
  - rewrite O1. rewrite spec_impl.
    replace (matrix bstep (brks s) (b ++ [0])) with (mat bstep (brks s) (ones b) EOF) by (unfold mat; rewrite irunes_EOF, ones_fst; reflexivity).
    replace (inputs b) with (ins (ones b) EOF) by (rewrite ins_EOF, ones_fst; reflexivity). reflexivity.
  - rewrite X. destruct Er2 as [->|[_ ?]]; congruence.
Qed.

(* ---- the cut as a segmentation ---- *)
Lemma cut_split (brk : list Z -> list Z -> bool) (test : atom -> bool) : forall rest l left open,
  map ar l = rest ->
  (forall j, (j < length rest)%nat -> test (nth j l zeroAtom) =
     match skipn (S j) rest with [] => true | t => brk (rev (firstn (S j) rest) ++ left) t end) ->
  map fst (cut test l open) = split_text brk left open rest.
Proof.
  induction rest as [|r t IH]; intros l left open Hl Ht; destruct l as [|a l]; try discriminate; [reflexivity|].
  simpl in Hl. inversion Hl; subst. cbn [cut split_text].
  pose proof (Ht 0%nat ltac:(simpl; lia)) as H0. cbn [nth skipn firstn rev app] in H0.
  assert (Hn : forall j, (j < length (map ar l))%nat -> test (nth j l zeroAtom) =
     match skipn (S j) (map ar l) with [] => true | t => brk (rev (firstn (S j) (map ar l)) ++ ar a :: left) t end).
  { intros j Hj. specialize (Ht (S j) ltac:(simpl in *; lia)). cbn [nth] in Ht. rewrite Ht.
    change (skipn (S (S j)) (ar a :: map ar l)) with (skipn (S j) (map ar l)).
    change (firstn (S (S j)) (ar a :: map ar l)) with (ar a :: firstn (S j) (map ar l)). cbn [rev]. rewrite <- app_assoc. reflexivity. }
  destruct (map ar l) as [|y u] eqn:E.
  - rewrite H0. destruct l; [|discriminate]. reflexivity.
  - rewrite H0. destruct (brk (ar a :: left) (y :: u)).
    + cbn [map fst]. f_equal. apply IH; auto.
    + apply IH; auto.
Qed.

Section One.
Context (b : B) (rs : list Z) (brk : list Z -> list Z -> bool).
Let m := matrix bstep [b] (rs ++ [0]).
Let T := breakable (false, false) false.

Lemma spec_is_segmentation :
  eot_safe m -> longest (last m []) <= 1 ->
  (forall j, (j < length rs)%nat -> T (eff (inputs rs) m j) =
     match skipn (S j) rs with [] => true | t => brk (rev (firstn (S j) rs)) t end) ->
  map fst (spec_of bstep (false, false) [b] rs) = segmentation brk rs.
Proof.
  intros Es Ll Ht. rewrite spec_impl. cbv zeta. fold m. unfold segmentation.
  assert (Lm : length m = S (length rs)) by (unfold m; rewrite matrix_len, app_length; simpl; lia).
  assert (Ne : m <> []) by (intros X; rewrite X in Lm; discriminate).
  assert (Eot : T (eff (inputs rs) m (length rs)) = false).
  { pose proof (eot_not_break bstep [b] (ones rs) EOF (false, false) eq_refl) as X. unfold mat in X. rewrite irunes_EOF, ones_fst in X.
    specialize (X Es). unfold Tf in X. unfold mat in X. rewrite irunes_EOF, ins_EOF, ones_fst in X.
    unfold ones in X. rewrite map_length in X. exact X. }
  assert (Rn : map ar (firstn (length rs) (effs (inputs rs) m)) = rs).
  { pose proof (effs_irunes bstep [b] (ones rs) EOF (S (length rs))) as X. unfold mat in X. rewrite irunes_EOF, ins_EOF, ones_fst in X. fold m in X.
    rewrite <- Lm, firstn_all in X. rewrite Lm in X. rewrite N_len in X. unfold ones in X. rewrite map_length in X. specialize (X ltac:(lia)).
    rewrite <- firstn_map, X. rewrite firstn_firstn. replace (Nat.min (length rs) (S (length rs))) with (length rs) by lia.
    rewrite firstn_app, firstn_all, Nat.sub_diag. simpl. now rewrite app_nil_r. }
  assert (K : map fst (cut (test_of (false, false) [b]) (firstn (length rs) (effs (inputs rs) m)) []) = split_text brk [] [] rs).
  { apply cut_split; auto. intros j Hj. rewrite nth_firstn by auto. rewrite effs_nth by lia. rewrite app_nil_r. apply (Ht j Hj). }
  pose proof (reach_le m) as R1. pose proof (reach_last m Ne Ll) as R2.
  destruct (Nat.eq_dec (reach m) (length rs)) as [->|]; auto.
  replace (reach m) with (S (length rs)) by lia.
  rewrite (firstn_snoc _ _ zeroAtom) by (rewrite effs_len; lia). rewrite effs_nth by lia.
  rewrite cut_app_last; auto.
Qed.
End One.

(* One primary breaker in a new segmenter. *)
Lemma slice_segmentation b text brk n : zlen text < MaxInt ->
  conforming (breakable (false, false) false) (inputs text) (matrix bstep [b] (text ++ [0])) ->
  eot_safe (matrix bstep [b] (text ++ [0])) -> longest (last (matrix bstep [b] (text ++ [0])) []) <= 1 ->
  (forall j, (j < length text)%nat -> breakable (false, false) false (eff (inputs text) (matrix bstep [b] (text ++ [0])) j) =
     match skipn (S j) text with [] => true | t => brk (rev (firstn (S j) text)) t end) ->
  (length text + 1 < n)%nat ->
  exists s1 outs s', InitFromSlice deque_ops text (NewSegmenter [b]) = Ok s1 /\ loop deque_ops bstep n s1 = Ok (outs, true, s') /\
    map fst outs = segmentation brk text /\ Err s' = None.
Proof.
  intros Tt Cf Es Ll Ht Hn.
  destruct (slice_texts [] [b] _ text n (Forall_nil _) eq_refl Tt Cf Es Hn) as (s1 & outs & s' & I & L & O & E).
  exists s1, outs, s'. split; auto. split; auto. split; [|unfold Err; rewrite E; reflexivity].
  rewrite O. apply spec_is_segmentation; auto.
Qed.
Lemma reader_segmentation b its brk n : Forall (fun it => 1 <= snd it) its -> sizes its < MaxInt -> let text := map fst its in
  conforming (breakable (false, false) false) (inputs text) (matrix bstep [b] (text ++ [0])) ->
  eot_safe (matrix bstep [b] (text ++ [0])) -> longest (last (matrix bstep [b] (text ++ [0])) []) <= 1 ->
  (forall j, (j < length text)%nat -> breakable (false, false) false (eff (inputs text) (matrix bstep [b] (text ++ [0])) j) =
     match skipn (S j) text with [] => true | t => brk (rev (firstn (S j) text)) t end) ->
  (length its + 1 < n)%nat ->
  exists s1 outs s', Init deque_ops (mkrd its EOF) (NewSegmenter [b]) = Ok s1 /\ loop deque_ops bstep n s1 = Ok (outs, true, s') /\
    map fst outs = map (firstn (Z.to_nat 4096)) (segmentation brk text) /\ Err s' = None.
Proof.
  intros Sz Tt text Cf Es Ll Ht Hn.
  destruct (reader_texts [] [b] _ its n (Forall_nil _) eq_refl Sz Tt Cf Hn) as (s1 & outs & s' & I & L & O & E).
  exists s1, outs, s'. split; auto. split; auto. split; [|unfold Err; rewrite E; reflexivity].
  rewrite O. rewrite <- (spec_is_segmentation b text brk); auto. rewrite map_map. reflexivity.
Qed.
End Facade.

(* ---- one breaker: columns over its answers ---- *)
Section Single.
Context {B : Type} (bstep : B -> Z -> B * Z * list Z).
Definition row1 (a : answer) : list answer := [a].
Lemma matrix_one : forall rs b, matrix bstep [b] rs = map row1 (answers bstep b rs).
Proof. induction rs as [|r t IH]; intros b; [reflexivity|]. cbn [matrix answers map bs_out bs_next]. now rewrite IH. Qed.

(* the penalty that answers give to position i *)
Definition pen (an : list answer) (i d : nat) : Z := nth d (snd (nth (i + d) an (0, []))) 0.
Definition total (an : list answer) (w i : nat) : Z := fold_right Z.add 0 (map (fun d => pen an i d) (seq 0 w)).

Lemma sum_seq (f : nat -> Z) : forall n i, fold_right Z.add 0 (map f (seq i n)) = fold_right Z.add 0 (map (fun d => f (i + d)%nat) (seq 0 n)).
Proof.
  induction n as [|n IH]; intros i; [reflexivity|]. cbn [seq map fold_right]. rewrite (IH (S i)), <- seq_shift, map_map.
  rewrite Nat.add_0_r. f_equal. f_equal. apply map_ext. intros d. f_equal. lia.
Qed.
Lemma sum_app a b : fold_right Z.add 0 (a ++ b) = fold_right Z.add 0 a + fold_right Z.add 0 b.
Proof. induction a; simpl; lia. Qed.
Lemma sum_zeros {A} (f : A -> Z) l : (forall x, In x l -> f x = 0) -> fold_right Z.add 0 (map f l) = 0.
Proof. induction l as [|a l IH]; simpl; intros H; auto. rewrite IH, (H a); auto. Qed.

Lemma column_total an w i : Forall (fun a : answer => (length (snd a) <= w)%nat) an ->
  column prim (map row1 an) i = total an w i.
Proof.
  intros Hw. unfold column, total. rewrite map_length. rewrite sum_seq.
  assert (P : forall d, prim (nth (i + d) (map row1 an) []) (i + d - i) = pen an i d).
  { intros d. unfold pen. replace (i + d - i)%nat with d by lia.
    destruct (le_lt_dec (length an) (i + d)).
    - rewrite (nth_overflow (map row1 an)) by (rewrite map_length; auto). rewrite (nth_overflow an) by auto. simpl. destruct d; reflexivity.
    - rewrite (nth_indep _ [] (row1 (0, []))) by (rewrite map_length; auto). rewrite map_nth. reflexivity. }
  rewrite (map_ext _ _ P). clear P.
  assert (Z1 : forall d, (w <= d)%nat -> pen an i d = 0).
  { intros d Hd. unfold pen. apply nth_overflow. destruct (le_lt_dec (length an) (i + d)).
    - rewrite nth_overflow by auto. simpl. lia.
    - rewrite Forall_forall in Hw. pose proof (Hw _ (nth_In an (0, []) l)). lia. }
  assert (Z2 : forall d, (length an - i <= d)%nat -> pen an i d = 0).
  { intros d Hd. unfold pen. rewrite (nth_overflow an) by lia. destruct d; reflexivity. }
  assert (SP : forall a b, (a <= b)%nat -> (forall d, (a <= d)%nat -> pen an i d = 0) ->
     fold_right Z.add 0 (map (fun d => pen an i d) (seq 0 b)) = fold_right Z.add 0 (map (fun d => pen an i d) (seq 0 a))).
  { intros a c Hab Hz. replace c with (a + (c - a))%nat by lia. rewrite seq_app, map_app, sum_app. rewrite (sum_zeros (fun d => pen an i d) (seq (0 + a) (c - a))); [lia|].
    intros x Hx. apply in_seq in Hx. apply Hz. lia. }
  destruct (le_lt_dec (length an - i) w).
  - symmetry. apply SP; auto.
  - apply SP; auto. lia.
Qed.
Lemma column_sec_one an i : column sec (map row1 an) i = 0.
Proof.
  unfold column. apply sum_zeros. intros k _. destruct (le_lt_dec (length an) k).
  - rewrite nth_overflow by (rewrite map_length; auto). reflexivity.
  - rewrite (nth_indep _ [] (row1 (0, []))) by (rewrite map_length; auto). rewrite map_nth. reflexivity.
Qed.
(* the test of the segmenter on a text position *)
Definition ok_pen (p : Z) : bool := (p <? 10000) && negb (p =? 0).
Lemma test_pos rs an w i : Forall (fun a : answer => (length (snd a) <= w)%nat) an -> (i < length rs)%nat ->
  breakable (false, false) false (eff (inputs rs) (map row1 an) i) = ok_pen (total an w i).
Proof.
  intros Hw Hi. unfold eff. rewrite (column_total _ w) by auto. rewrite column_sec_one.
  assert (E : nth i (inputs rs) zeroAtom = mkatom (nth i rs 0) 0 0).
  { unfold inputs. rewrite app_nth1 by (rewrite map_length; auto). rewrite (nth_indep _ zeroAtom (mkatom 0 0 0)) by (rewrite map_length; auto).
    rewrite (map_nth (fun r => mkatom r 0 0)). reflexivity. }
  rewrite E. cbn [ap0 ap1 ar]. unfold breakable, isPossibleBreak, ok_pen, InfinitePenalty. cbn [ap0 ap1 fst snd].
  rewrite Z.add_0_l. destruct (Z.ltb_spec (total an w i) 10000); destruct (Z.eqb_spec (total an w i) 0); cbn; rewrite ?Z.geb_leb;
    destruct (Z.leb_spec 10000 (total an w i)); try lia; auto.
Qed.

Lemma pen_prefix an k i d : pen (firstn k an) i d = if (i + d <? k)%nat then pen an i d else 0.
Proof.
  unfold pen. destruct (Nat.ltb_spec (i + d) k).
  - rewrite nth_firstn by auto. reflexivity.
  - rewrite nth_overflow; [reflexivity|]. rewrite (nth_overflow (firstn k an)); [simpl; lia|]. rewrite firstn_length. lia.
Qed.
Lemma longest_one a : longest (row1 a) = Z.max (fst a) 0.
Proof. reflexivity. Qed.
Lemma conforming_one rs an w : length an = S (length rs) -> Forall (fun a : answer => (length (snd a) <= w)%nat) an ->
  (forall k i, (1 <= k < length an)%nat -> (i < k)%nat -> Z.of_nat i < Z.of_nat k - Z.max (fst (nth (k - 1) an (0, []))) 0 ->
     ok_pen (total (firstn k an) w i) = ok_pen (total an w i)) ->
  conforming (breakable (false, false) false) (inputs rs) (map row1 an).
Proof.
  intros Hl Hw H k i Hk Hs. rewrite map_length in Hk. unfold settled in Hs.
  rewrite (nth_indep _ [] (row1 (0, []))) in Hs by (rewrite map_length; lia). rewrite map_nth, longest_one in Hs.
  destruct (Nat.eq_dec k (length an)) as [->|]; [rewrite <- (map_length row1 an), firstn_all; reflexivity|].
  rewrite firstn_map. rewrite !(test_pos rs _ w); try lia; auto.
  - apply H; lia.
  - apply Forall_forall. intros a Ia. rewrite Forall_forall in Hw. apply Hw. rewrite <- (firstn_skipn k an). apply in_or_app. auto.
Qed.
Lemma last_one (an : list answer) : an <> [] -> last (map row1 an) [] = row1 (last an (0, [])).
Proof.
  induction an as [|a t IH]; intros H; [congruence|]. destruct t as [|b t]; [reflexivity|].
  change (last (map row1 (a :: b :: t)) []) with (last (map row1 (b :: t)) []). rewrite IH by discriminate. reflexivity.
Qed.
End Single.
