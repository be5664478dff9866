(* SegEager.v -- the loop of Next() calls for breakers whose verdict on a position is final from the
   moment it is settled, even when later rows still change the penalties of the position. *)
From Coq Require Import List ZArith Lia Bool.
From Verif Require Import Base RuneWrite Segmenter SegSim SegSpec PrioQProofs SegProofs SegInv SegNext SegCut SegFacade SegTheorems SimpleWordProofs BreakSpec BreakFacade.
Import ListNotations.
Open Scope Z_scope.

(* Cut the text after every position p with V p. *)
Fixpoint vcut (V : nat -> bool) (p : nat) (l open : list Z) : list (list Z) :=
  match l with
  | [] => []
  | r :: t => if V p then (open ++ [r]) :: vcut V (S p) t [] else vcut V (S p) t (open ++ [r])
  end.
Lemma vcut_none V : forall l p o, (forall j, (j < length l)%nat -> V (p + j)%nat = false) -> vcut V p l o = [].
Proof.
  induction l as [|r l IH]; intros p o H; [reflexivity|]. cbn [vcut].
  pose proof (H 0%nat ltac:(simpl; lia)) as H0. rewrite Nat.add_0_r in H0. rewrite H0. apply IH.
  intros j Hj. specialize (H (S j) ltac:(simpl; lia)). rewrite Nat.add_succ_r in H. exact H.
Qed.
Lemma vcut_some V : forall l p i o, (i < length l)%nat -> (forall j, (j < i)%nat -> V (p + j)%nat = false) -> V (p + i)%nat = true ->
  vcut V p l o = (o ++ firstn (S i) l) :: vcut V (p + S i) (skipn (S i) l) [].
Proof.
  induction l as [|r l IH]; intros p i o Hi Hn Hv; [simpl in Hi; lia|]. cbn [vcut]. destruct i as [|i].
  - rewrite Nat.add_0_r in Hv. rewrite Hv. replace (p + 1)%nat with (S p) by lia. reflexivity.
  - pose proof (Hn 0%nat ltac:(lia)) as H0. rewrite Nat.add_0_r in H0. rewrite H0.
    rewrite (IH (S p) i); [| simpl in Hi; lia | |].
    + rewrite <- app_assoc. replace (S p + S i)%nat with (p + S (S i))%nat by lia. reflexivity.
    + intros j Hj. specialize (Hn (S j) ltac:(lia)). rewrite Nat.add_succ_r in Hn. exact Hn.
    + rewrite Nat.add_succ_r in Hv. exact Hv.
Qed.

Section Eager.
Context {B : Type} (bstep : B -> Z -> B * Z * list Z).
Context (bs0 : list B) (its : list (Z * Z)) (z0 : bool * bool).
Context (sizes1 : Forall (fun it => 1 <= snd it) its) (total : sizes its < MaxInt).
Notation OL := list_ops.
Notation rs := (rs its).
Notation irunes := (irunes its EOF).
Notation mat := (mat bstep bs0 its EOF).
Notation N := (N its EOF).
Notation lam_at := (lam_at bstep bs0 its EOF).
Notation at_ := (at_ bstep bs0 its EOF z0).
Notation F := (F bstep bs0 its EOF z0).
Notation T := (T bstep bs0 its EOF z0).

(* position p is settled after k rows *)
Definition settles (k p : nat) : Prop := Z.of_nat p < Z.of_nat k - lam_at k.
Definition eager (V : nat -> bool) : Prop :=
  (forall k p, (k <= N)%nat -> settles k p -> T k p = true -> V p = true) /\
  (forall k p, (k <= N)%nat -> settles k p -> (forall j, (j < k)%nat -> ~ settles j p) -> V p = true -> T k p = true).
Context (V : nat -> bool) (HV : eager V).
Context (lam1 : forall k, (1 <= k <= N)%nat -> 1 <= lam_at k) (lamN : lam_at N <= 1).

Lemma settles_dec j p : {settles j p} + {~ settles j p}.
Proof. unfold settles. destruct (Z_lt_dec (Z.of_nat p) (Z.of_nat j - lam_at j)); auto. Qed.
Lemma first_settled p : forall j, settles j p -> exists j0, (j0 <= j)%nat /\ settles j0 p /\ forall i, (i < j0)%nat -> ~ settles i p.
Proof.
  intros j H.
  assert (G : forall n, (exists j0, (j0 < n)%nat /\ settles j0 p /\ forall i, (i < j0)%nat -> ~ settles i p) \/ forall i, (i < n)%nat -> ~ settles i p).
  { induction n as [|n IH]; [right; lia|]. destruct IH as [(j0 & A & C)|IH]; [left; exists j0; split; [lia|auto]|].
    destruct (settles_dec n p) as [Sn|Sn]; [left; exists n; auto|]. right. intros i Hi. destruct (Nat.eq_dec i n) as [->|]; auto. apply IH. lia. }
  destruct (G (S j)) as [(j0 & A & C)|C].
  - exists j0. split; [lia|auto].
  - exfalso. apply (C j); auto.
Qed.

(* No position beyond c with a positive verdict was settled before row k. *)
Definition behind (k c : nat) : Prop := forall p j, (c <= p)%nat -> (j < k)%nat -> (j <= N)%nat -> settles j p -> V p = false.

Lemma behind_more k k' c : behind k c -> (c <= k)%nat -> (k' <= N)%nat -> (forall j, (k <= j < k')%nat -> F j c = None) -> behind k' c.
Proof.
  intros Hb Hc Hk J p j Hp Hj Hn Sj. destruct (V p) eqn:Ev; auto. exfalso.
  destruct (first_settled p j Sj) as (j0 & A & S0 & Mn).
  destruct (le_lt_dec k j0).
  - assert (T j0 p = true) by (apply (proj2 HV); auto; lia).
    assert (X : T j0 p = false) by (apply (F_None bstep bs0 its EOF z0 j0 c); auto; try lia; apply J; lia). congruence.
  - rewrite (Hb p j0) in Ev; auto; try lia; discriminate.
Qed.
(* what row k adds *)
Lemma behind_at k c p : behind k c -> (c <= p)%nat -> (k <= N)%nat -> settles k p -> T k p = false -> V p = false.
Proof.
  intros Hb Hp Hk Sk Tk. destruct (V p) eqn:Ev; auto. exfalso.
  destruct (first_settled p k Sk) as (j0 & A & S0 & Mn). destruct (Nat.eq_dec j0 k) as [->|].
  - rewrite (proj2 HV) in Tk; auto. discriminate.
  - rewrite (Hb p j0) in Ev; auto; try lia; discriminate.
Qed.

Lemma loop_eager mode : forall n k c s, at_ k c s -> holds mode rs c (rbuf s) -> (N - c < n)%nat -> behind k c ->
  exists outs s', loop OL bstep n s = Ok (outs, true, s') /\
    map fst outs = map (view mode) (vcut V c (skipn c rs) []) /\ err s' = err s.
Proof.
  assert (EN : N = S (length its)) by (rewrite N_len; lia).
  induction n as [|n IH]; intros k c s H W Hn Hb; [lia|].
  destruct (GS_bounds bstep bs0 its EOF z0 k c s (proj1 H)) as [C1 C2].
  assert (Lim : forall j i, (c <= j)%nat -> (j <= N)%nat -> F j c = Some i -> (c + i < length its)%nat).
  { intros j i Hc Hj Fi. destruct (F_lt bstep bs0 its EOF z0 j c i Fi) as [L1 L2]; auto.
    pose proof (lam1 j ltac:(lia)). lia. }
  assert (Lrs : length rs = length its) by (unfold SegInv.rs; apply map_length).
  destruct (exec_step bstep bs0 its EOF z0 sizes1 total mode k c s H W) as (k' & K & J & [ST|ST]).
  { auto. }
  { intros _ j i Hj Fi. specialize (Lim j i ltac:(lia) ltac:(lia) Fi). lia. }
  - destruct ST as (i & s1 & Fi & E & H1 & W1 & Er). cbn [loop]. rewrite E. cbn [rbind].
    pose proof (behind_more k k' c Hb ltac:(lia) ltac:(lia) J) as Hb'.
    destruct (F_Some bstep bs0 its EOF z0 k' c i Fi) as [T1 T2]; try lia.
    destruct (F_lt bstep bs0 its EOF z0 k' c i Fi) as [L1 L2]; try lia. pose proof (Lim k' i ltac:(lia) ltac:(lia) Fi) as Li.
    destruct (IH k' (c + S i)%nat s1 H1 W1) as (outs & s2 & E2 & O1 & Er2); [lia| |].
    { intros p j Hp. apply Hb'. lia. }
    rewrite E2. cbn [rbind]. eexists _, s2. split; [reflexivity|]. split; [|congruence].
    cbn [map fst]. rewrite O1. rewrite (vcut_some V _ c i).
    + cbn [map app]. f_equal; [f_equal|].
      * unfold SegInv.irunes, SegInv.ins. rewrite map_app, map_map. cbn [ar]. rewrite map_id. rewrite skipn_app, firstn_app.
        replace (S i - length (skipn c rs))%nat with 0%nat by (rewrite skipn_length; lia). now rewrite firstn_O, app_nil_r.
      * f_equal. f_equal. clear. revert c. generalize rs as l. induction l as [|a l IHl]; intros c.
        { now rewrite !skipn_nil. } destruct c; [reflexivity|]. cbn [skipn Nat.add]. apply IHl.
    + rewrite skipn_length. lia.
    + intros j Hj. apply (behind_at k' c); auto; try lia. { unfold settles. lia. } apply T2. lia.
    + apply (proj1 HV k'); auto. lia.
  - destruct ST as (s1 & Fn & Kn & E & A1 & H1 & Er). cbn [loop]. rewrite E. cbn [rbind]. eexists _, s1. split; [reflexivity|].
    pose proof (behind_more k k' c Hb ltac:(lia) ltac:(lia) J) as Hb'. subst k'.
    split; [|destruct Er as [Er|[_ Er]]; congruence].
    rewrite vcut_none; [reflexivity|]. intros j Hj. rewrite skipn_length in Hj.
    assert (Sj : settles N (c + j)) by (unfold settles; lia).
    apply (behind_at N c); auto; try lia. apply (F_None bstep bs0 its EOF z0 N c); auto; lia.
Qed.
End Eager.

(* ---- one breaker in a new segmenter ---- *)
Lemma vcut_split (V : nat -> bool) (brk : list Z -> list Z -> bool) : forall rest left open,
  (forall j, (j < length rest)%nat -> V (length left + j)%nat =
     match skipn (S j) rest with [] => true | t => brk (rev (firstn (S j) rest) ++ left) t end) ->
  vcut V (length left) rest open = split_text brk left open rest.
Proof.
  induction rest as [|r t IH]; intros left open Ht; [reflexivity|]. cbn [vcut split_text].
  pose proof (Ht 0%nat ltac:(simpl; lia)) as H0. rewrite Nat.add_0_r in H0. cbn [skipn firstn rev app] in H0. rewrite H0.
  assert (Hn : forall j, (j < length t)%nat -> V (length (r :: left) + j)%nat =
     match skipn (S j) t with [] => true | t' => brk (rev (firstn (S j) t) ++ r :: left) t' end).
  { intros j Hj. specialize (Ht (S j) ltac:(simpl; lia)). rewrite Nat.add_succ_r in Ht. cbn [length Nat.add]. rewrite Ht.
    change (skipn (S (S j)) (r :: t)) with (skipn (S j) t). change (firstn (S (S j)) (r :: t)) with (r :: firstn (S j) t).
    cbn [rev]. rewrite <- app_assoc. reflexivity. }
  change (S (length left)) with (length (r :: left)).
  destruct t as [|y u]; [reflexivity|]. destruct (brk (r :: left) (y :: u)).
  - f_equal. apply IH; auto.
  - apply IH; auto.
Qed.

Section Facade.
Context {B : Type} (bstep : B -> Z -> B * Z * list Z) (b : B).
(* V is the verdict of the answers [an] of the breaker to the text and its end *)
Definition eager_answers (text : list Z) (an : list answer) (V : nat -> bool) : Prop :=
  let test k i := breakable (false, false) false (eff (inputs text) (map row1 (firstn k an)) i) in
  let lam k := match k with O => 0 | S j => Z.max (fst (nth j an (0, []))) 0 end in
  let settled k i := Z.of_nat i < Z.of_nat k - lam k in
  (forall k i, (k <= length an)%nat -> settled k i -> test k i = true -> V i = true) /\
  (forall k i, (k <= length an)%nat -> settled k i -> (forall j, (j < k)%nat -> ~ settled j i) -> V i = true -> test k i = true).
Context (brk : list Z -> list Z -> bool).

Section Text.
Context (its : list (Z * Z)).
Notation text := (map fst its).
Notation an := (answers bstep b (text ++ [0])).
Lemma mat_answers : mat bstep [b] its EOF = map row1 an.
Proof. unfold mat. rewrite irunes_EOF. apply matrix_one. Qed.
Lemma lam_answers k : (k <= length an)%nat -> lam_at bstep [b] its EOF k = match k with O => 0 | S j => Z.max (fst (nth j an (0, []))) 0 end.
Proof.
  intros Hk. destruct k as [|j]; [reflexivity|]. cbn [lam_at]. rewrite mat_answers.
  rewrite (nth_indep _ [] (row1 (0, []))) by (rewrite map_length; lia). rewrite map_nth. apply longest_one.
Qed.
Lemma N_answers : N its EOF = length an.
Proof. rewrite <- (mat_len bstep [b] its EOF), mat_answers. apply map_length. Qed.
Lemma eager_one V : eager_answers text an V -> eager bstep [b] its (false, false) V.
Proof.
  intros [A C]. split.
  - intros k p Hk Sp Tp. rewrite N_answers in Hk. unfold settles in Sp. rewrite lam_answers in Sp by auto.
    apply (A k); auto. unfold T, test0 in Tp. rewrite mat_answers, firstn_map, ins_EOF in Tp. exact Tp.
  - intros k p Hk Sp Mn Vp. rewrite N_answers in Hk. unfold settles in Sp. rewrite lam_answers in Sp by auto.
    unfold T, test0. rewrite mat_answers, firstn_map, ins_EOF. apply (C k p); auto.
    intros j Hj Sj. apply (Mn j Hj). unfold settles. rewrite lam_answers by lia. exact Sj.
Qed.
Context (V : nat -> bool) (HV : eager_answers text an V).
Context (Hl : Forall (fun a : answer => 1 <= fst a) an) (Hlast : fst (last an (0, [])) <= 1).
Context (Hb : forall j, (j < length text)%nat -> V j = match skipn (S j) text with [] => true | t => brk (rev (firstn (S j) text)) t end).
Lemma lam_ge k : (1 <= k <= N its EOF)%nat -> 1 <= lam_at bstep [b] its EOF k.
Proof.
  intros Hk. rewrite N_answers in Hk. rewrite lam_answers by lia. destruct k as [|j]; [lia|].
  rewrite Forall_forall in Hl. pose proof (Hl (nth j an (0, [])) ltac:(apply nth_In; lia)). lia.
Qed.
Lemma lam_last : lam_at bstep [b] its EOF (N its EOF) <= 1.
Proof.
  assert (X : length an <> 0%nat) by (rewrite <- N_answers, N_len; lia).
  rewrite N_answers, lam_answers by lia. destruct (length an) eqn:E; [lia|].
  assert (Y : last an (0, []) = nth n an (0, [])).
  { revert E. clear. generalize an as l. induction l as [|x l IH] in n |- *; [discriminate|]. intros E. destruct l as [|y l]; [simpl in E; inversion E; reflexivity|].
    destruct n as [|n]; [discriminate|]. change (last (x :: y :: l) (0, [])) with (last (y :: l) (0, [])). rewrite (IH n); [reflexivity|]. simpl in *. lia. }
  rewrite <- Y. lia.
Qed.
Lemma vcut_segmentation : vcut V 0 text [] = segmentation brk text.
Proof.
  unfold segmentation. change 0%nat with (length (@nil Z)). apply vcut_split. intros j Hj. rewrite app_nil_r. apply Hb. auto.
Qed.
Lemma eager_reader n : Forall (fun it => 1 <= snd it) its -> sizes its < MaxInt -> (length its + 1 < n)%nat ->
  exists s1 outs s', Init deque_ops (mkrd its EOF) (NewSegmenter [b]) = Ok s1 /\ loop deque_ops bstep n s1 = Ok (outs, true, s') /\
    map fst outs = map (firstn (Z.to_nat 4096)) (segmentation brk text) /\ Err s' = None.
Proof.
  intros Sz Tt Hn. destruct (hist_state bstep [] [b] _ (Forall_nil _) eq_refl) as (t & S & Hi).
  destruct (reader_start bstep _ t (mkrd its EOF) S Hi) as (s1 & t1 & I & S1 & A & C & Er). cbn [items fin] in A.
  destruct (loop_eager bstep [b] its (false, false) Sz Tt V (eager_one V HV) lam_ge lam_last (Some 4096) n 0 0 t1 A C)
    as (outs & t2 & E & O1 & Er2).
  { rewrite N_len. lia. }
  { intros p j Hp Hj. lia. }
  destruct (loop_transfer bstep n s1 t1 _ S1 E) as (s' & E' & S'). exists s1, outs, s'. cbn [fst snd] in *.
  destruct (ssim_fields _ _ S') as (_ & _ & _ & X & _). split; [auto|]. split; [auto|]. split.
  - rewrite O1. cbn [skipn]. change (rs its) with text. rewrite vcut_segmentation. reflexivity.
  - unfold Err. rewrite X, Er2, Er. reflexivity.
Qed.
End Text.
Lemma eager_slice V text n : zlen text < MaxInt -> (length text + 1 < n)%nat ->
  eager_answers text (answers bstep b (text ++ [0])) V ->
  Forall (fun a : answer => 1 <= fst a) (answers bstep b (text ++ [0])) -> fst (last (answers bstep b (text ++ [0])) (0, [])) <= 1 ->
  (forall j, (j < length text)%nat -> V j = match skipn (S j) text with [] => true | t => brk (rev (firstn (S j) text)) t end) ->
  exists s1 outs s', InitFromSlice deque_ops text (NewSegmenter [b]) = Ok s1 /\ loop deque_ops bstep n s1 = Ok (outs, true, s') /\
    map fst outs = segmentation brk text /\ Err s' = None.
Proof.
  intros Tt Hn HV Hl Hlast Hb. destruct (hist_state bstep [] [b] _ (Forall_nil _) eq_refl) as (t & S & Hi).
  destruct (slice_start bstep _ t text S Hi) as (s1 & t1 & I & S1 & A & C & Er). destruct (ones_sizes text) as [Sz Tt'].
  rewrite <- (ones_fst text) in HV, Hl, Hlast, Hb.
  destruct (loop_eager bstep [b] (ones text) (false, false) Sz ltac:(rewrite Tt'; auto) V (eager_one _ V HV) (lam_ge _ Hl) (lam_last _ Hlast) None n 0 0 t1 A)
    as (outs & t2 & E & O1 & Er2).
  { unfold rs. rewrite ones_fst. exact C. }
  { rewrite N_len. unfold ones. rewrite map_length. lia. }
  { intros p j Hp Hj. lia. }
  destruct (loop_transfer bstep n s1 t1 _ S1 E) as (s' & E' & S'). exists s1, outs, s'. cbn [fst snd] in *.
  destruct (ssim_fields _ _ S') as (_ & _ & _ & X & _). split; [auto|]. split; [auto|]. split.
  - rewrite O1. cbn [skipn]. change (rs (ones text)) with (map fst (ones text)). rewrite (vcut_segmentation _ V Hb). rewrite ones_fst.
    cbn [view]. apply map_id.
  - unfold Err. rewrite X, Er2, Er. reflexivity.
Qed.
End Facade.
