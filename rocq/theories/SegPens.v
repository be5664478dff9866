(* SegPens.v -- the penalties that come with the segments of SegEager.v. *)
From Coq Require Import List ZArith Lia Bool.
From Verif Require Import Base RuneWrite Segmenter SegSim SegSpec PrioQProofs SegProofs SegInv SegNext SegCut SegFacade SegTheorems SimpleWordProofs BreakSpec BreakFacade SegEager.
Import ListNotations.
Open Scope Z_scope.

(* Cut the text after every position p with V p; each part with P p. *)
Fixpoint pcut (V : nat -> bool) (P : nat -> Z) (p : nat) (l open : list Z) : list (list Z * Z) :=
  match l with
  | [] => []
  | r :: t => if V p then (open ++ [r], P p) :: pcut V P (S p) t [] else pcut V P (S p) t (open ++ [r])
  end.
Lemma pcut_fst V P : forall l p o, map fst (pcut V P p l o) = vcut V p l o.
Proof. induction l as [|r l IH]; intros p o; [reflexivity|]. cbn [pcut vcut]. destruct (V p); cbn [map fst]; now rewrite IH. Qed.
Lemma pcut_none V P : forall l p o, (forall j, (j < length l)%nat -> V (p + j)%nat = false) -> pcut V P p l o = [].
Proof.
  induction l as [|r l IH]; intros p o H; [reflexivity|]. cbn [pcut].
  pose proof (H 0%nat ltac:(simpl; lia)) as H0. rewrite Nat.add_0_r in H0. rewrite H0. apply IH.
  intros j Hj. specialize (H (S j) ltac:(simpl; lia)). rewrite Nat.add_succ_r in H. exact H.
Qed.
Lemma pcut_some V P : forall l p i o, (i < length l)%nat -> (forall j, (j < i)%nat -> V (p + j)%nat = false) -> V (p + i)%nat = true ->
  pcut V P p l o = (o ++ firstn (S i) l, P (p + i)%nat) :: pcut V P (p + S i) (skipn (S i) l) [].
Proof.
  induction l as [|r l IH]; intros p i o Hi Hn Hv; [simpl in Hi; lia|]. cbn [pcut]. destruct i as [|i].
  - rewrite Nat.add_0_r in *. rewrite Hv. replace (p + 1)%nat with (S p) by lia. reflexivity.
  - pose proof (Hn 0%nat ltac:(lia)) as H0. rewrite Nat.add_0_r in H0. rewrite H0.
    rewrite (IH (S p) i); [| simpl in Hi; lia | |].
    + rewrite <- app_assoc. replace (S p + S i)%nat with (p + S (S i))%nat by lia. replace (S p + i)%nat with (p + S i)%nat by lia. reflexivity.
    + intros j Hj. specialize (Hn (S j) ltac:(lia)). rewrite Nat.add_succ_r in Hn. exact Hn.
    + rewrite Nat.add_succ_r in Hv. exact Hv.
Qed.
(* the parts up to one of them end at its position *)
Lemma pcut_nth V P : forall l p o n seg q, nth_error (pcut V P p l o) n = Some (seg, q) ->
  exists i, (i < length l)%nat /\ V (p + i)%nat = true /\ q = P (p + i)%nat /\ concat (map fst (firstn (S n) (pcut V P p l o))) = o ++ firstn (S i) l.
Proof.
  induction l as [|r l IH]; intros p o n seg q H; [destruct n; discriminate|]. cbn [pcut] in *. destruct (V p) eqn:E.
  - destruct n as [|n].
    + injection H as <- <-. exists 0%nat. rewrite Nat.add_0_r. split; [simpl; lia|]. split; [auto|]. split; [auto|]. cbn. now rewrite app_nil_r.
    + cbn [nth_error] in H. destruct (IH _ _ _ _ _ H) as (i & A & B & C & D). exists (S i). rewrite Nat.add_succ_r. split; [simpl; lia|]. split; [auto|]. split; [auto|].
      rewrite firstn_cons. cbn [map fst concat]. rewrite D. cbn [app]. rewrite firstn_cons, <- app_assoc. reflexivity.
  - destruct (IH _ _ _ _ _ H) as (i & A & B & C & D). exists (S i). rewrite Nat.add_succ_r. split; [simpl; lia|]. split; [auto|]. split; [auto|].
    rewrite D, <- app_assoc, firstn_cons. reflexivity.
Qed.

Section Pens.
Context {B : Type} (bstep : B -> Z -> B * Z * list Z).
Context (bs0 : list B) (its : list (Z * Z)) (z0 : bool * bool).
Context (sizes1 : Forall (fun it => 1 <= snd it) its) (total : sizes its < MaxInt).
Notation OL := list_ops.
Notation rs := (rs its).
Notation mat := (mat bstep bs0 its EOF).
Notation N := (N its EOF).
Notation lam_at := (lam_at bstep bs0 its EOF).
Notation at_ := (at_ bstep bs0 its EOF z0).
Notation settles := (settles bstep bs0 its).
Notation behind := (behind bstep bs0 its).
Notation F := (F bstep bs0 its EOF z0).
Context (V : nat -> bool) (HV : eager bstep bs0 its z0 V).
Context (lam1 : forall k, (1 <= k <= N)%nat -> 1 <= lam_at k) (lamN : lam_at N <= 1).
Context (P : nat -> Z).
Context (HP : forall k p, (k <= N)%nat -> settles k p -> (forall j, (j < k)%nat -> ~ settles j p) -> V p = true -> fst (seg_pens bstep bs0 its EOF k p) = P p).

Lemma loop_pens mode : forall n k c s, at_ k c s -> holds mode rs c (rbuf s) -> (N - c < n)%nat -> behind V k c ->
  exists outs s', loop OL bstep n s = Ok (outs, true, s') /\
    map (fun o => (fst o, fst (snd o))) outs = map (fun x => (view mode (fst x), snd x)) (pcut V P c (skipn c rs) []) /\ err s' = err s.
Proof.
  assert (EN : N = S (length its)) by (rewrite N_len; lia).
  induction n as [|n IH]; intros k c s H W Hn Hb; [lia|].
  destruct (GS_bounds bstep bs0 its EOF z0 k c s (proj1 H)) as [C1 C2].
  assert (Lim : forall j i, (c <= j)%nat -> (j <= N)%nat -> F j c = Some i -> (c + i < length its)%nat).
  { intros j i Hc Hj Fi. destruct (F_lt bstep bs0 its EOF z0 j c i Fi) as [L1 L2]; auto.
    pose proof (lam1 j ltac:(lia)). lia. }
  assert (Lrs : length rs = length its) by (unfold SegInv.rs; apply map_length).
  destruct (exec_step bstep bs0 its EOF z0 sizes1 total mode k c s H W) as (k' & K & J & [ST|ST]).
  { auto. }
  { intros _ j i Hj Fi. specialize (Lim j i ltac:(lia) ltac:(lia) Fi). lia. }
  - destruct ST as (i & s1 & Fi & E & H1 & W1 & Er). cbn [loop]. rewrite E. cbn [rbind].
    pose proof (behind_more bstep bs0 its z0 V HV k k' c Hb ltac:(lia) ltac:(lia) J) as Hb'.
    destruct (F_Some bstep bs0 its EOF z0 k' c i Fi) as [T1 T2]; try lia.
    destruct (F_lt bstep bs0 its EOF z0 k' c i Fi) as [L1 L2]; try lia. pose proof (Lim k' i ltac:(lia) ltac:(lia) Fi) as Li.
    destruct (IH k' (c + S i)%nat s1 H1 W1) as (outs & s2 & E2 & O1 & Er2); [lia| |].
    { intros p j Hp. apply Hb'. lia. }
    assert (Vp : V (c + i) = true) by (apply (proj1 HV k'); auto; lia).
    rewrite E2. cbn [rbind]. eexists _, s2. split; [reflexivity|]. split; [|congruence].
    cbn [map fst snd]. rewrite O1. rewrite (pcut_some V P _ c i); auto.
    + cbn [map app fst snd]. f_equal; [f_equal; [f_equal|]|].
      * unfold SegInv.irunes, SegInv.ins. rewrite map_app, map_map. cbn [ar]. rewrite map_id. rewrite skipn_app, firstn_app.
        replace (S i - length (skipn c rs))%nat with 0%nat by (rewrite skipn_length; lia). now rewrite firstn_O, app_nil_r.
      * apply HP; auto; try lia. intros j Hj Sj. rewrite (Hb' (c + i)%nat j ltac:(lia) Hj ltac:(lia) Sj) in Vp. discriminate.
      * f_equal. f_equal. clear. revert c. generalize rs as l. induction l as [|a l IHl]; intros c.
        { now rewrite !skipn_nil. } destruct c; [reflexivity|]. cbn [skipn Nat.add]. apply IHl.
    + rewrite skipn_length. lia.
    + intros j Hj. apply (behind_at bstep bs0 its z0 V HV k' c); auto; try lia. { unfold SegEager.settles. lia. } apply T2. lia.
  - destruct ST as (s1 & Fn & Kn & E & A1 & H1 & Er). cbn [loop]. rewrite E. cbn [rbind]. eexists _, s1. split; [reflexivity|].
    pose proof (behind_more bstep bs0 its z0 V HV k k' c Hb ltac:(lia) ltac:(lia) J) as Hb'. subst k'.
    split; [|destruct Er as [Er|[_ Er]]; congruence].
    rewrite pcut_none; [reflexivity|]. intros j Hj. rewrite skipn_length in Hj.
    assert (Sj : settles N (c + j)) by (unfold SegEager.settles; lia).
    apply (behind_at bstep bs0 its z0 V HV N c); auto; try lia. apply (F_None bstep bs0 its EOF z0 N c); auto; lia.
Qed.
End Pens.

(* one breaker in a new segmenter *)
Section Facade.
Context {B : Type} (bstep : B -> Z -> B * Z * list Z) (b : B).
Definition pens_answers (text : list Z) (an : list answer) (V : nat -> bool) (P : nat -> Z) : Prop :=
  let lam k := match k with O => 0 | S j => Z.max (fst (nth j an (0, []))) 0 end in
  let settled k i := Z.of_nat i < Z.of_nat k - lam k in
  forall k i, (k <= length an)%nat -> settled k i -> (forall j, (j < k)%nat -> ~ settled j i) -> V i = true ->
    ap0 (eff (inputs text) (map row1 (firstn k an)) i) = P i.
Lemma pens_slice V P text n : zlen text < MaxInt -> (length text + 1 < n)%nat ->
  let an := answers bstep b (text ++ [0]) in
  eager_answers text an V -> Forall (fun a : answer => 1 <= fst a) an -> fst (last an (0, [])) <= 1 -> pens_answers text an V P ->
  exists s1 outs s', InitFromSlice deque_ops text (NewSegmenter [b]) = Ok s1 /\ loop deque_ops bstep n s1 = Ok (outs, true, s') /\
    map (fun o => (fst o, fst (snd o))) outs = pcut V P 0 text [] /\ Err s' = None.
Proof.
  cbv zeta. intros Tt Hn HV Hl Hlast HP. destruct (hist_state bstep [] [b] _ (Forall_nil _) eq_refl) as (t & S & Hi).
  destruct (slice_start bstep _ t text S Hi) as (s1 & t1 & I & S1 & A & C & Er). destruct (ones_sizes text) as [Sz Tt'].
  rewrite <- (ones_fst text) in HV, Hl, Hlast, HP.
  assert (HP' : forall k p, (k <= N (ones text) EOF)%nat -> settles bstep [b] (ones text) k p -> (forall j, (j < k)%nat -> ~ settles bstep [b] (ones text) j p) -> V p = true ->
    fst (seg_pens bstep [b] (ones text) EOF k p) = P p).
  { intros k p Hk Sp Mn Vp. rewrite (N_answers bstep b (ones text)) in Hk. unfold settles in Sp. rewrite lam_answers in Sp by auto.
    unfold seg_pens. cbn [fst]. rewrite mat_answers, firstn_map, ins_EOF. apply (HP k p); auto.
    intros j Hj Sj. apply (Mn j Hj). unfold settles. rewrite lam_answers by lia. exact Sj. }
  destruct (loop_pens bstep [b] (ones text) (false, false) Sz ltac:(rewrite Tt'; auto) V (eager_one bstep b _ V HV) (lam_ge bstep b _ Hl) (lam_last bstep b _ Hlast) P HP' None n 0 0 t1 A)
    as (outs & t2 & E & O1 & Er2).
  { unfold rs. rewrite ones_fst. exact C. }
  { rewrite N_len. unfold ones. rewrite map_length. lia. }
  { intros p j Hp Hj. lia. }
  destruct (loop_transfer bstep n s1 t1 _ S1 E) as (s' & E' & S'). exists s1, outs, s'. cbn [fst snd] in *.
  destruct (ssim_fields _ _ S') as (_ & _ & _ & X & _). split; [auto|]. split; [auto|]. split.
  - rewrite O1. cbn [skipn]. change (rs (ones text)) with (map fst (ones text)). rewrite ones_fst. cbn [view].
    rewrite <- (map_id (pcut V P 0 text [])) at 2. apply map_ext. now intros [u v].
  - unfold Err. rewrite X, Er2, Er. reflexivity.
Qed.
Lemma pens_reader V P its n : Forall (fun it => 1 <= snd it) its -> sizes its < MaxInt -> (length its + 1 < n)%nat ->
  let text := map fst its in let an := answers bstep b (text ++ [0]) in
  eager_answers text an V -> Forall (fun a : answer => 1 <= fst a) an -> fst (last an (0, [])) <= 1 -> pens_answers text an V P ->
  exists s1 outs s', Init deque_ops (mkrd its EOF) (NewSegmenter [b]) = Ok s1 /\ loop deque_ops bstep n s1 = Ok (outs, true, s') /\
    map (fun o => (fst o, fst (snd o))) outs = map (fun x => (firstn (Z.to_nat 4096) (fst x), snd x)) (pcut V P 0 text []) /\ Err s' = None.
Proof.
  cbv zeta. intros Sz Tt Hn HV Hl Hlast HP. destruct (hist_state bstep [] [b] _ (Forall_nil _) eq_refl) as (t & S & Hi).
  destruct (reader_start bstep _ t (mkrd its EOF) S Hi) as (s1 & t1 & I & S1 & A & C & Er). cbn [items fin] in A.
  assert (HP' : forall k p, (k <= N its EOF)%nat -> settles bstep [b] its k p -> (forall j, (j < k)%nat -> ~ settles bstep [b] its j p) -> V p = true ->
    fst (seg_pens bstep [b] its EOF k p) = P p).
  { intros k p Hk Sp Mn Vp. rewrite (N_answers bstep b its) in Hk. unfold settles in Sp. rewrite lam_answers in Sp by auto.
    unfold seg_pens. cbn [fst]. rewrite mat_answers, firstn_map, ins_EOF. apply (HP k p); auto.
    intros j Hj Sj. apply (Mn j Hj). unfold settles. rewrite lam_answers by lia. exact Sj. }
  destruct (loop_pens bstep [b] its (false, false) Sz Tt V (eager_one bstep b _ V HV) (lam_ge bstep b _ Hl) (lam_last bstep b _ Hlast) P HP' (Some 4096) n 0 0 t1 A C)
    as (outs & t2 & E & O1 & Er2).
  { rewrite N_len. lia. }
  { intros p j Hp Hj. lia. }
  destruct (loop_transfer bstep n s1 t1 _ S1 E) as (s' & E' & S'). exists s1, outs, s'. cbn [fst snd] in *.
  destruct (ssim_fields _ _ S') as (_ & _ & _ & X & _). split; [auto|]. split; [auto|]. split.
  - rewrite O1. reflexivity.
  - unfold Err. rewrite X, Er2, Er. reflexivity.
Qed.
End Facade.
