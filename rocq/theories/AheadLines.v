(* AheadLines.v -- lines: one rune is read ahead, or two if the second decides whether a number begins. *)
From Coq Require Import List ZArith Lia Bool.
From Verif Require Import Base RuneWrite Segmenter SegSim SegSpec PrioQProofs SegProofs SegInv SegNext SegCut SegFacade SegTheorems SimpleWordProofs BreakSpec BreakFacade SegEager Ahead.
From Verif Require Import Rows Line LineSum LineVerdict LineSpec LineCor LineAgree.
Import ListNotations.
Open Scope Z_scope.

Section Eager.
Context {B : Type} (bstep : B -> Z -> B * Z * list Z) (bs0 : list B) (its : list (Z * Z)) (z0 : bool * bool).
Context (sizes1 : Forall (fun it => 1 <= snd it) its) (total : sizes its < MaxInt).
Notation OL := list_ops.
Notation rs := (rs its).
Notation N := (N its EOF).
Notation lam_at := (lam_at bstep bs0 its EOF).
Notation at_ := (at_ bstep bs0 its EOF z0).
Notation F := (F bstep bs0 its EOF z0).
Notation T := (T bstep bs0 its EOF z0).
Notation settles := (settles bstep bs0 its).
Context (V : nat -> bool) (HV : eager bstep bs0 its z0 V).
Context (lam1 : forall k, (1 <= k <= N)%nat -> 1 <= lam_at k) (lamN : lam_at N <= 1).
Notation behind := (behind bstep bs0 its V).
(* [Inv k c]: k runes read (the end of the text counts as one), c delivered; p is the last position of the segment *)
Context (Inv : nat -> nat -> Prop).
Context (step_inv : forall k c k' p, (k = 0%nat /\ c = 0%nat) \/ Inv k c -> (c <= k <= k')%nat -> (k' <= N)%nat -> (c <= p)%nat -> (p < length its)%nat ->
  settles k' p -> V p = true -> (forall j, (j < k')%nat -> ~ settles j p) -> Inv k' (S p)).

Lemma loop_eager_reads mode : forall n k c s outs s', at_ k c s -> holds mode rs c (rbuf s) -> behind k c ->
  (k = 0%nat /\ c = 0%nat) \/ Inv k c -> loop OL bstep n s = Ok (outs, false, s') ->
  exists segs k' c', vcut V c (skipn c rs) [] = segs ++ vcut V c' (skipn c' rs) [] /\ length segs = n /\
    map fst outs = map (view mode) segs /\ c' = (c + length (concat segs))%nat /\
    at_ k' c' s' /\ ((n = 0%nat /\ k' = k) \/ Inv k' c').
Proof.
  assert (EN : N = S (length its)) by (rewrite N_len; lia).
  induction n as [|n IH]; intros k c s outs s' H W Hb HI L.
  { cbn [loop] in L. injection L as <- <-. exists [], k, c. cbn. rewrite Nat.add_0_r. auto 10. }
  destruct (GS_bounds bstep bs0 its EOF z0 k c s (proj1 H)) as [C1 C2].
  assert (Lim : forall j i, (c <= j)%nat -> (j <= N)%nat -> F j c = Some i -> (c + i < length its)%nat).
  { intros j i Hc Hj Fi. destruct (F_lt bstep bs0 its EOF z0 j c i Fi) as [L1 L2]; auto.
    pose proof (lam1 j ltac:(lia)). lia. }
  assert (Lrs : length rs = length its) by (unfold SegInv.rs; apply map_length).
  destruct (exec_step bstep bs0 its EOF z0 sizes1 total mode k c s H W) as (k' & K & J & [ST|ST]).
  { auto. }
  { intros _ j i Hj Fi. specialize (Lim j i ltac:(lia) ltac:(lia) Fi). lia. }
  - destruct ST as (i & s1 & Fi & E & H1 & W1 & Er). cbn [loop] in L. rewrite E in L. cbn [rbind] in L.
    destruct (loop OL bstep n s1) as [[[xs b] s2]| |] eqn:EL; [|discriminate|discriminate]. cbn [rbind] in L. injection L as <- -> ->.
    pose proof (behind_more bstep bs0 its z0 V HV k k' c Hb ltac:(lia) ltac:(lia) J) as Hb'.
    destruct (F_Some bstep bs0 its EOF z0 k' c i Fi) as [T1 T2]; try lia.
    destruct (F_lt bstep bs0 its EOF z0 k' c i Fi) as [L1 L2]; try lia. pose proof (Lim k' i ltac:(lia) ltac:(lia) Fi) as Li.
    assert (Sk : settles k' (c + i)) by (unfold SegEager.settles; lia).
    assert (Vp : V (c + i) = true) by (apply (proj1 HV k'); auto; lia).
    assert (HI' : Inv k' (S (c + i))).
    { apply (step_inv k c k' (c + i)%nat); auto; try lia. intros j Hj Sj. rewrite (Hb' (c + i)%nat j) in Vp; auto; lia. }
    replace (S (c + i)) with (c + S i)%nat in HI' by lia.
    destruct (IH k' (c + S i)%nat s1 xs s' H1 W1) as (segs & k2 & c2 & S1 & S2 & S3 & S4 & S5 & S6); auto.
    { intros p j Hp. apply Hb'. lia. }
    assert (Cut : vcut V c (skipn c rs) [] = firstn (S i) (skipn c rs) :: vcut V (c + S i) (skipn (c + S i) rs) []).
    { rewrite (vcut_some V _ c i); [|rewrite skipn_length; lia| |exact Vp].
      - cbn [app]. f_equal. f_equal. clear. revert c. generalize rs as l. induction l as [|a l IHl]; intros c.
        { now rewrite !skipn_nil. } destruct c; [reflexivity|]. cbn [skipn Nat.add]. apply IHl.
      - intros j Hj. apply (behind_at bstep bs0 its z0 V HV k' c); auto; try lia. { unfold SegEager.settles. lia. } apply T2. lia. }
    exists (firstn (S i) (skipn c rs) :: segs), k2, c2. split; [rewrite Cut, S1; reflexivity|]. split; [cbn; lia|]. split.
    { assert (EQ : firstn (S i) (skipn c (SegInv.irunes its EOF)) = firstn (S i) (skipn c rs)).
      { unfold SegInv.irunes, SegInv.ins. rewrite map_app, map_map. cbn [ar]. rewrite map_id. rewrite skipn_app, firstn_app.
        replace (S i - length (skipn c rs))%nat with 0%nat by (rewrite skipn_length; lia). now rewrite firstn_O, app_nil_r. }
      cbn [map fst]. rewrite S3. f_equal. now rewrite <- EQ. }
    split. { cbn [concat]. rewrite app_length, firstn_length, skipn_length. lia. }
    split; [exact S5|]. right. destruct S6 as [[-> ->]|S6]; [|exact S6].
    cbn [loop] in EL. destruct segs; [|discriminate]. cbn [concat length] in S4. rewrite Nat.add_0_r in S4. subst c2. exact HI'.
  - destruct ST as (s1 & Fn & Kn & E & A1 & H1 & Er). cbn [loop] in L. rewrite E in L. cbn [rbind] in L. discriminate.
Qed.
End Eager.

(* ---- the recognisers of numbers ---- *)
Lemma fin_9 : forall f rc, In f feats -> In rc rclasses -> (negb ((fph f =? 2) && one_of (fcl f rc) [OP; HY]) || (one_of (fa f) [PR; PO] && one_of rc [OP; HY])) = true.
Proof. apply (feats_all (fun f rc => negb ((fph f =? 2) && one_of (fcl f rc) [OP; HY]) || (one_of (fa f) [PR; PO] && one_of rc [OP; HY]))). vm_compute. reflexivity. Qed.

Section Lines.
Context (table : Z -> Z -> bool) (comb : Z -> bool) (its : list (Z * Z)).
Notation text := (map fst its).
Notation cs := (map (lcls table comb) text).
Notation step := (lb_step table comb).
Notation bs0 := [Some NewLineWrap].
Notation lam_at := (lam_at step bs0 its EOF).
Notation settles := (settles step bs0 its).
Lemma llam_at k : (1 <= k <= S (length its))%nat -> lam_at k = llam (sat cs k).
Proof.
  intros K. assert (LA : answers step (Some NewLineWrap) (text ++ [0]) = rows lnext llam lpens st0 (cs ++ [eot])).
  { rewrite (line_rows table comb _ _ _ st0_ok new_state), map_app. cbn [map]. rewrite lcls_0. reflexivity. }
  rewrite lam_answers by (rewrite LA, rows_len, app_length, !map_length; cbn [length]; lia). destruct k as [|j]; [lia|].
  rewrite LA, lam_an by (rewrite rows_len, app_length, !map_length; cbn [length]; lia). unfold llam. lia.
Qed.
(* where a prefix of numbers and an opening come before and after the break *)
Definition opening (c : nat) : Prop :=
  one_of (last_class (units (rev (firstn c cs)))) [PR; PO] = true /\ one_of (nth c cs 0) [OP; HY] = true /\ nth (S c) cs 0 <> NU.
Definition near (k c : nat) : Prop := (c <= length its)%nat /\ (k = S c \/ (k = S (S c) /\ (S c <= length its)%nat /\ opening c)).
Lemma near_step k c k' p : (k = 0%nat /\ c = 0%nat) \/ near k c -> (c <= k <= k')%nat -> (k' <= S (length its))%nat -> (c <= p)%nat -> (p < length its)%nat ->
  settles k' p -> LV cs p = true -> (forall j, (j < k')%nat -> ~ settles j p) -> near k' (S p).
Proof.
  intros HI C1 C2 P1 P2 Sk Vp Mn. split; [lia|]. pose proof (classes_ok table comb text) as Hcs.
  assert (LC : length cs = length its) by now rewrite !map_length.
  assert (LL : length (cs ++ [eot]) = S (length its)) by (rewrite app_length, LC; cbn [length]; lia).
  assert (K2 : (S (S p) <= k')%nat). { unfold SegEager.settles in Sk. destruct k' as [|j]; [cbn in Sk; lia|]. rewrite llam_at in Sk by lia. unfold llam in Sk. lia. }
  destruct (Nat.eq_dec k' (S (S p))) as [|NE2]; [left; auto|right].
  unfold LV in Vp. apply verdict_iff in Vp. destruct Vp as [Vb Vi].
  pose proof (sat_ok cs Hcs (S p)) as Ok1. pose proof (sat_ok cs Hcs (S (S p))) as Ok2. pose proof (nth_ok cs Hcs (S p) ltac:(lia)) as N1.
  set (f := fst (sat cs (S p))) in *. set (b := nth (S p) (cs ++ [eot]) 0) in *.
  assert (M : moves (fph f) (fcl f b) = true -> (fph f =? 2) && one_of (fcl f b) [OP; HY] = true /\ nth (S (S p)) (cs ++ [eot]) 0 <> NU).
  { intros M. specialize (Vi M). unfold covered in Vi. destruct ((fph f =? 2) && one_of (fcl f b) [OP; HY]); [|discriminate]. apply Z.eqb_neq in Vi. auto. }
  destruct (moves (fph f) (fcl f b)) eqn:MV.
  - destruct (M eq_refl) as [E2 Nu]. clear M.
    pose proof (fin_9 f b (proj1 Ok1) N1) as X. rewrite E2 in X. cbn [negb orb] in X. apply andb_prop in X. destruct X as [X1 X2].
    assert (PB : (S p < length its)%nat).
    { destruct (Nat.eq_dec (S p) (length its)) as [E|]; [exfalso|lia]. unfold b in X2. rewrite app_nth2 in X2 by lia. rewrite LC, E, Nat.sub_diag in X2. discriminate. }
    assert (P3 : fph (fst (sat cs (S (S p)))) = 3).
    { rewrite (sat_S cs (S p)) by lia. cbn [lnext fst]. pose proof (fin_7 f b (proj1 Ok1) N1) as Y. rewrite E2 in Y. cbn [negb orb] in Y. now apply Z.eqb_eq in Y. }
    pose proof (nth_ok cs Hcs (S (S p)) ltac:(lia)) as N2.
    assert (M2 : moves (fph (fst (sat cs (S (S p))))) (fcl (fst (sat cs (S (S p)))) (nth (S (S p)) (cs ++ [eot]) 0)) = false).
    { pose proof (fin_8 (fst (sat cs (S (S p)))) (nth (S (S p)) (cs ++ [eot]) 0) (proj1 Ok2) N2) as Y. apply orb_prop in Y; destruct Y as [Y|Y]; [|apply negb_true_iff in Y; exact Y].
      apply orb_prop in Y; destruct Y as [Y|Y]; [rewrite P3 in Y; discriminate Y|apply Z.eqb_eq in Y; contradiction]. }
    assert (S3 : settles (S (S (S p))) p).
    { unfold SegEager.settles. rewrite llam_at by lia. rewrite sat_S by lia. unfold llam, lnext. cbn [snd].
      change (substitute (nth (S (S p)) (cs ++ [eot]) 0) (fa (fst (sat cs (S (S p)))))) with (fcl (fst (sat cs (S (S p)))) (nth (S (S p)) (cs ++ [eot]) 0)).
      rewrite llam_1 by auto. lia. }
    assert (K3 : k' = S (S (S p))).
    { destruct (Nat.eq_dec k' (S (S (S p)))) as [|N3]; [auto|]. exfalso. apply (Mn (S (S (S p)))); [lia|exact S3]. }
    split; [exact K3|]. split; [lia|]. assert (EF : f = feat_of (units (rev (firstn (S p) cs)))).
    { unfold f, sat. rewrite firstn_app. replace (S p - length cs)%nat with 0%nat by lia. rewrite firstn_O, app_nil_r.
      rewrite <- (feat_units (rev (firstn (S p) cs))) with (s := st0); [now rewrite rev_involutive| |reflexivity].
      apply Forall_rev, Forall_forall. intros x Hx. rewrite Forall_forall in Hcs. apply Hcs. rewrite <- (firstn_skipn (S p) cs). apply in_or_app. auto. }
    split; [rewrite EF in X1; exact X1|]. split; [unfold b in X2; rewrite app_nth1 in X2 by lia; exact X2|].
    destruct (Nat.eq_dec (S (S p)) (length its)) as [E|]; [rewrite nth_overflow by lia; vm_compute; discriminate|]. rewrite app_nth1 in Nu by lia. exact Nu.
  - exfalso. apply (Mn (S (S p))); [lia|]. unfold SegEager.settles. rewrite llam_at by lia. rewrite sat_S by lia. unfold llam, lnext. cbn [snd].
    fold f b. change (substitute b (fa f)) with (fcl f b). rewrite llam_1 by auto. lia.
Qed.
Lemma line_ahead n s1 outs s' : Forall (fun it => 1 <= snd it) its -> sizes its < MaxInt ->
  Init deque_ops (mkrd its EOF) (NewSegmenter bs0) = Ok s1 -> loop deque_ops step n s1 = Ok (outs, false, s') -> (0 < n)%nat ->
  let segs := firstn n (segmentation (line_break code_break (lcls table comb)) text) in let c := length (concat segs) in
  map fst outs = map (firstn (Z.to_nat 4096)) segs /\
  exists k d, near k c /\ rdr s' = Some (mkrd (skipn k its) EOF) /\ dq s' = Some d /\ q_len deque_ops d = Z.of_nat (k - c).
Proof.
  intros Sz Tt I L Hn segs0 c0. destruct (answers_lam table comb text) as [Al Alast].
  destruct (hist_state step [] bs0 _ (Forall_nil _) eq_refl) as (t & S0 & Hi).
  destruct (reader_start step _ t (mkrd its EOF) S0 Hi) as (s1' & t1 & I' & S1 & A & C & Er). cbn [items fin] in A.
  change (init_limit _) with 4096 in C. rewrite I in I'. injection I' as <-.
  change (brks (NewSegmenter bs0)) with bs0 in A. change (boz (NewSegmenter bs0)) with (false, false) in A.
  pose proof (sim_loop step n s1 t1 S1) as SL. rewrite L in SL.
  destruct (loop list_ops step n t1) as [[[o2 b2] t2]| |] eqn:E2; simpl in SL; try contradiction. destruct SL as [EQ SS]. injection EQ as <- <-.
  destruct (loop_eager_reads step bs0 its (false, false) Sz Tt (LV cs) (eager_one step (Some NewLineWrap) its _ (eager_text table comb text)) (lam_ge step (Some NewLineWrap) its Al) near) with (mode := Some 4096) (n := n) (k := 0%nat) (c := 0%nat) (s := t1) (outs := outs) (s' := t2)
    as (segs & k' & c' & E1 & E2' & E3 & E4 & E5 & E6); auto.
  - intros. apply (near_step k c k' p); auto. rewrite N_len in *. lia.
  - intros p j Hp Hj. lia.
  - assert (SG : segmentation (line_break code_break (lcls table comb)) text = segs ++ vcut (LV cs) c' (skipn c' text) []).
    { rewrite <- (vcut_segmentation (line_break code_break (lcls table comb)) its (LV cs)); [exact E1|]. intros j Hj. now apply LV_text. }
    assert (FN : segs0 = segs).
    { unfold segs0. rewrite SG, firstn_app. rewrite E2', Nat.sub_diag, firstn_O, app_nil_r. rewrite <- E2'. apply firstn_all. }
    subst c0. rewrite FN. cbn [Nat.add] in E4. rewrite <- E4. split; [rewrite E3; reflexivity|].
    destruct E6 as [[E6 _]|E6]; [lia|]. destruct (at_reader _ _ _ _ _ _ _ _ E5) as (R1 & d & R2 & R3).
    destruct SS as (Sd & Sr & _). rewrite R2 in Sd. destruct (dq s') as [d'|] eqn:DQ; simpl in Sd; [|contradiction]. exists k', d'.
    split; [exact E6|]. split; [rewrite Sr; exact R1|]. split; [reflexivity|]. rewrite (sim_len d' d Sd). cbn. unfold zlen. now rewrite R3.
Qed.
End Lines.
