(* Ahead.v -- how far the segmenter has read when a segment is delivered. *)
From Coq Require Import List ZArith Lia Bool.
From Verif Require Import Base RuneWrite Segmenter SegSim SegSpec PrioQProofs SegProofs SegInv SegNext SegCut SegFacade SegTheorems SimpleWordProofs BreakSpec BreakFacade SegWeak.
Import ListNotations.
Open Scope Z_scope.

Section Reads.
Context {B : Type} (bstep : B -> Z -> B * Z * list Z).
Context (bs0 : list B) (its : list (Z * Z)) (f : error) (z0 : bool * bool).
Context (sizes1 : Forall (fun it => 1 <= snd it) its) (total : sizes its < MaxInt).
Notation OL := list_ops.
Notation rs := (rs its).
Notation ins := (ins its f).
Notation irunes := (irunes its f).
Notation mat := (mat bstep bs0 its f).
Notation N := (N its f).
Notation lam_at := (lam_at bstep bs0 its f).
Notation test0 := (test0 bs0 z0).
Notation at_ := (at_ bstep bs0 its f z0).
Notation F := (F bstep bs0 its f z0).
Notation T := (T bstep bs0 its f z0).
Notation Tf := (Tf bstep bs0 its f z0).
Notation R := (reach mat).
Notation rest := (rest bstep bs0 its f).

Context (weak : weakly_conforming test0 ins mat) (last1 : longest (last mat []) <= 1) (Npos : (1 <= N)%nat).

(* [Inv k c]: k runes read (the end of the text counts as one), c delivered. *)
Context (Inv : nat -> nat -> Prop).
Context (step_inv : forall k c k' i, (k = 0%nat /\ c = 0%nat) \/ Inv k c -> (c <= k <= k')%nat -> (k' <= N)%nat -> (forall j, (k <= j < k')%nat -> F j c = None) -> F k' c = Some i ->
  Tf (c + i) = true -> Inv k' (c + S i)%nat).

Lemma loop_reads mode : forall n k c s outs s', at_ k c s -> holds mode rs c (rbuf s) ->
  (k = 0%nat /\ c = 0%nat) \/ Inv k c ->
  (mode = None -> f = EOF /\ forall p, (p < R)%nat -> Tf p = true -> (p < length its)%nat) ->
  loop OL bstep n s = Ok (outs, false, s') ->
  exists segs k' c', cut test0 (rest c) [] = segs ++ cut test0 (rest c') [] /\ length segs = n /\
    map fst outs = map (fun x => view mode (fst x)) segs /\ c' = (c + length (concat (map fst segs)))%nat /\
    at_ k' c' s' /\ ((n = 0%nat /\ k' = k) \/ Inv k' c').
Proof.
  induction n as [|n IH]; intros k c s outs s' H W HI M L.
  { cbn [loop] in L. injection L as <- <-. exists [], k, c. cbn. rewrite Nat.add_0_r. auto 10. }
  destruct (GS_bounds bstep bs0 its f z0 k c s (proj1 H)) as [C1 C2].
  assert (FR : forall k' i, (c <= k')%nat -> (k' <= N)%nat -> F k' c = Some i -> (c + i < R)%nat /\ Tf (c + i) = true /\
     forall j, (j < i)%nat -> Tf (c + j) = false).
  { intros k' i Hc Hk Fi. destruct (F_lt bstep bs0 its f z0 k' c i Fi) as [L1 L2]; auto.
    destruct (F_Some bstep bs0 its f z0 k' c i Fi) as [T1 T2]; auto.
    pose proof (T_weak bstep bs0 its f z0 weak Npos k' (c + i) Hk L2 T1) as X. split; [|split].
    - pose proof (reach_N bstep bs0 its f z0 weak last1 Npos) as H0. pose proof (settled_N bstep bs0 its f z0 weak last1 Npos). pose proof (lam_at_nonneg bstep bs0 its f k').
      destruct (Nat.eq_dec k' N) as [->|]; [|lia]. rewrite settled_lam in H0 by lia. lia.
    - rewrite <- X by lia. auto.
    - intros j Hj. rewrite <- X by lia. apply T2. lia. }
  destruct (exec_step bstep bs0 its f z0 sizes1 total mode k c s H W) as (k' & K & J & [ST|ST]).
  { intros m. now apply M. }
  { intros m j i Hj Fi. destruct (M m) as [_ M2]. destruct (FR j i) as (X & Y & _); try lia; auto. specialize (M2 _ X Y). lia. }
  - destruct ST as (i & s1 & Fi & E & H1 & W1 & Er). cbn [loop] in L. rewrite E in L. cbn [rbind] in L.
    destruct (FR k' i) as (X & Y & Y'); try lia; auto.
    destruct (loop OL bstep n s1) as [[[xs b] s2]| |] eqn:EL; [|discriminate|discriminate]. cbn [rbind] in L. injection L as <- -> ->.
    assert (HI' : Inv k' (c + S i)%nat) by (apply (step_inv k c k' i); auto; lia).
    destruct (IH k' (c + S i)%nat s1 xs s' H1 W1 (or_intror HI') M EL) as (segs & k2 & c2 & S1 & S2 & S3 & S4 & S5 & S6).
    assert (Sp : rest c = firstn i (rest c) ++ eff ins mat (c + i) :: rest (c + S i)).
    { rewrite <- (rest_nth bstep bs0 its f c i X). rewrite <- (rest_skip bstep bs0 its f c (S i)).
      rewrite <- skipn_nth by (rewrite rest_len; lia). now rewrite firstn_skipn. }
    assert (Fa : Forall (fun a => test0 a = false) (firstn i (rest c))).
    { apply Forall_forall. intros a Ia. apply (In_nth _ _ zeroAtom) in Ia. destruct Ia as (j & Lj & <-).
      rewrite firstn_length, rest_len in Lj. rewrite nth_firstn by lia. rewrite rest_nth by lia.
      apply Y'. lia. }
    assert (EQ : map ar (firstn i (rest c)) ++ [ar (eff ins mat (c + i))] = firstn (S i) (skipn c irunes)).
    { rewrite <- (rest_runes bstep bs0 its f c (S i)) by lia. rewrite (firstn_snoc (rest c) i zeroAtom) by (rewrite rest_len; lia).
      rewrite map_app. cbn [map]. rewrite rest_nth by auto. reflexivity. }
    assert (CU : cut test0 (rest c) [] = (firstn (S i) (skipn c irunes), (ap0 (eff ins mat (c + i)), ap1 (eff ins mat (c + i)))) :: cut test0 (rest (c + S i)) []).
    { rewrite Sp. rewrite cut_some by auto. cbn [app]. rewrite EQ. reflexivity. }
    rewrite CU. eexists (_ :: segs), k2, c2. split; [rewrite S1; reflexivity|]. split; [cbn [length]; lia|]. split; [cbn [map fst]; rewrite S3; reflexivity|].
    split.
    { cbn [map fst concat]. rewrite app_length, S4. 
      assert (LL : length (firstn (S i) (skipn c irunes)) = S i) by (rewrite <- EQ, app_length, map_length, firstn_length, rest_len; cbn [length]; lia).
      rewrite LL. lia. }
    split; [exact S5|]. right. destruct S6 as [[-> ->]|S6]; [|exact S6].
    cbn [loop] in EL. destruct segs; [|discriminate]. cbn [map concat length] in S4. rewrite Nat.add_0_r in S4. subst c2. exact HI'.
  - destruct ST as (s1 & Fn & Kn & E & A1 & H1 & Er). cbn [loop] in L. rewrite E in L. cbn [rbind] in L. discriminate.
Qed.
End Reads.

(* The reader and the queue of a state. *)
Lemma at_reader {B} (bstep : B -> Z -> B * Z * list Z) bs0 its f z0 k c s :
  at_ bstep bs0 its f z0 k c s -> rdr s = Some (mkrd (skipn k its) f) /\ exists d, dq s = Some d /\ length d = (k - c)%nat.
Proof.
  intros [(d & D & H) _]. split; [apply (G_rdr _ _ _ _ _ _ _ _ _ H)|]. exists d. split; [exact D|].
  rewrite (G_d _ _ _ _ _ _ _ _ _ H). pose proof (queue_len bstep bs0 its f k c (G_c _ _ _ _ _ _ _ _ _ H) (G_k _ _ _ _ _ _ _ _ _ H)) as Q. unfold zlen in Q. lia.
Qed.

(* One breaker in a new segmenter that reads from a reader. *)
Section Facade.
Context {B : Type} (bstep : B -> Z -> B * Z * list Z) (b : B) (its : list (Z * Z)) (pieces : list (list Z)).
Notation text := (map fst its).
Notation m := (matrix bstep [b] (text ++ [0])).
Context (Cf : weakly_conforming (breakable (false, false) false) (inputs text) m) (Ll : longest (last m []) <= 1).
Context (HP : map fst (spec_of bstep (false, false) [b] text) = pieces).
Context (Inv : nat -> nat -> Prop).
Notation F := (F bstep [b] its EOF (false, false)).
Notation Tf := (Tf bstep [b] its EOF (false, false)).
Context (step_inv : forall k c k' i, (k = 0%nat /\ c = 0%nat) \/ Inv k c -> (c <= k <= k')%nat -> (k' <= S (length its))%nat -> (forall j, (k <= j < k')%nat -> F j c = None) -> F k' c = Some i ->
  Tf (c + i) = true -> Inv k' (c + S i)%nat).

Lemma reads_ahead n s1 outs s' : Forall (fun it => 1 <= snd it) its -> sizes its < MaxInt ->
  Init deque_ops (mkrd its EOF) (NewSegmenter [b]) = Ok s1 -> loop deque_ops bstep n s1 = Ok (outs, false, s') -> (0 < n)%nat ->
  let c := length (concat (firstn n (pieces))) in
  map fst outs = map (firstn (Z.to_nat 4096)) (firstn n (pieces)) /\
  exists k, Inv k c /\ rdr s' = Some (mkrd (skipn k its) EOF) /\ (c <= k <= S (length its))%nat /\
    exists d, dq s' = Some d /\ q_len deque_ops d = Z.of_nat (k - c).
Proof.
  intros Sz Tt I L Hn c0.
  destruct (hist_state bstep [] [b] _ (Forall_nil _) eq_refl) as (t & S & Hi).
  destruct (reader_start bstep _ t (mkrd its EOF) S Hi) as (s1' & t1 & I' & S1 & A & C & Er). cbn [items fin] in A.
  change (init_limit _) with 4096 in C. rewrite I in I'. injection I' as <-.
  change (brks (NewSegmenter [b])) with [b] in A. change (boz (NewSegmenter [b])) with (false, false) in A.
  pose proof (sim_loop bstep n s1 t1 S1) as SL. rewrite L in SL.
  destruct (loop list_ops bstep n t1) as [[[o2 b2] t2]| |] eqn:E2; simpl in SL; try contradiction. destruct SL as [EQ SS]. injection EQ as <- <-.
  assert (NL : N its EOF = Datatypes.S (length its)) by (rewrite N_len; lia).
  destruct (loop_reads bstep [b] its EOF (false, false) Sz Tt) with (Inv := Inv) (mode := Some 4096) (n := n) (k := 0%nat) (c := 0%nat) (s := t1) (outs := outs) (s' := t2)
    as (segs & k' & c' & E1 & E2' & E3 & E4 & E5 & E6); auto.
  - rewrite ins_EOF. unfold mat. rewrite irunes_EOF. exact Cf.
  - unfold mat. rewrite irunes_EOF. exact Ll.
  - lia.
  - intros. apply (step_inv k c k' i); auto. lia.
  - discriminate.
  - assert (SG : pieces = map fst segs ++ map fst (cut (breakable (false, false) false) (rest bstep [b] its EOF c') [])).
    { rewrite <- map_app, <- HP. change (test0 [b] (false, false)) with (breakable (false, false) false) in E1. rewrite <- E1.
      rewrite spec_impl. unfold rest, mat. rewrite irunes_EOF, ins_EOF. reflexivity. }
    assert (FN : firstn n (pieces) = map fst segs).
    { rewrite SG, firstn_app. rewrite map_length, E2', Nat.sub_diag, firstn_O, app_nil_r. rewrite <- E2', <- (map_length fst segs). apply firstn_all. }
    subst c0. rewrite FN. cbn [Nat.add] in E4. rewrite <- E4. split; [rewrite E3, map_map; reflexivity|].
    exists k'. destruct E6 as [[E6 _]|E6]; [lia|]. split; [exact E6|].
    destruct (at_reader _ _ _ _ _ _ _ _ E5) as (R1 & d & R2 & R3). destruct (GS_bounds _ _ _ _ _ _ _ _ (proj1 E5)) as [B1 B2].
    destruct SS as (Sd & Sr & _). split; [rewrite Sr; exact R1|]. split; [lia|].
    rewrite R2 in Sd. destruct (dq s') as [d'|] eqn:DQ; simpl in Sd; [|contradiction]. exists d'. split; [reflexivity|].
    rewrite (sim_len d' d Sd). cbn. unfold zlen. now rewrite R3.
Qed.
End Facade.
