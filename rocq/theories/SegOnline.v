(* SegOnline.v -- what a segmenter delivers with arbitrary breakers: every break as soon as it can be seen. *)
From Coq Require Import List ZArith Lia Bool.
From Verif Require Import Base RuneWrite Segmenter SegSim SegSpec PrioQProofs SegProofs SegInv SegNext SegCut SegFacade SegTheorems SimpleWordProofs BreakSpec BreakFacade SegEager SegFirst.
Import ListNotations.
Open Scope Z_scope.

(* ---- Specification of C83 ---- *)
(* [m]: the answers of the breakers to the text and its end, one row for each rune; [perm]: do these penalties permit a break? *)
Section Online.
Context (text : list Z) (m : list (list answer)) (perm : atom -> bool).
(* the penalties of position p as far as they are known after k rows *)
Definition known (k p : nat) : atom := eff (inputs text) (firstn k m) p.
(* a break at p can be seen after k rows: no active match reaches back to p, and the penalties permit a break *)
Definition seen (k p : nat) : Prop := Z.of_nat p < settled m k /\ perm (known k p) = true.
(* From row k on, c the start of the open segment: the next segment ends at the first break that can be seen at the earliest time, with the
   penalties known then.  The rest follows from that time on. *)
Inductive online : nat -> nat -> list (list Z * (Z * Z)) -> Prop :=
| on_end k c : (forall j p, (k <= j <= length m)%nat -> (c <= p)%nat -> ~ seen j p) -> online k c []
| on_next k c j e l : (k <= j <= length m)%nat -> (c <= e)%nat -> seen j e -> (forall p, (c <= p < e)%nat -> ~ seen j p) ->
    (forall i p, (k <= i < j)%nat -> (c <= p)%nat -> ~ seen i p) -> online j (S e) l ->
    online k c ((firstn (S e - c) (skipn c text), (ap0 (known j e), ap1 (known j e))) :: l).
Lemma online_det : forall k c l, online k c l -> forall l', online k c l' -> l = l'.
Proof.
  induction 1 as [k c H|k c j e l K C Sn H1 H2 D IH]; intros l' D'; inversion D' as [? ? H'|? ? j' e' l2 K' C' Sn' H1' H2' D2]; subst; auto.
  - exfalso. exact (H j' e' K' C' Sn').
  - exfalso. exact (H' j e K C Sn).
  - assert (j' = j) as ->.
    { destruct (Nat.lt_trichotomy j j') as [X|[X|X]]; auto; exfalso; [exact (H2' j e ltac:(lia) C Sn)|exact (H2 j' e' ltac:(lia) C' Sn')]. }
    assert (e' = e) as ->.
    { destruct (Nat.lt_trichotomy e e') as [X|[X|X]]; auto; exfalso; [exact (H1' e ltac:(lia) Sn)|exact (H1 e' ltac:(lia) Sn')]. }
    f_equal. auto.
Qed.
End Online.

(* ---- the segmenter ---- *)
Section Delivery.
Context {B : Type} (bstep : B -> Z -> B * Z * list Z).
Context (bs0 : list B) (its : list (Z * Z)) (z0 : bool * bool).
Notation N := (N its EOF).
Notation mat := (mat bstep bs0 its EOF).
Notation T := (T bstep bs0 its EOF z0).
Notation settles := (settles bstep bs0 its).
Notation perm := (permitted z0 (1 <? zlen bs0)).
Notation seen := (seen (map fst its) mat perm).
Lemma seen_iff j p : seen j p <-> settles j p /\ T j p = true.
Proof.
  unfold SegOnline.seen, SegEager.settles, SegNext.T, known. rewrite <- ins_EOF. change (test0 bs0 z0) with (test_of z0 bs0). rewrite test_of_ok.
  destruct j as [|j]; [|rewrite settled_lam by lia; reflexivity].
  pose proof (settled_le mat 0). cbn [lam_at]. split; intros [X Y]; exfalso; lia.
Qed.
Lemma delivery_online : forall k c L, delivery bstep bs0 its z0 k c L -> (c <= k <= N)%nat ->
  online (map fst its) mat perm k c (map (render bstep bs0 its None) L).
Proof.
  induction 1 as [k c H|k c k1 i L K J Fi D IH]; intros Hk; cbn [map].
  - apply on_end. intros j p Hj Hp Sn. rewrite mat_len in Hj. apply seen_iff in Sn. destruct Sn as [S1 S2].
    rewrite (F_None bstep bs0 its EOF z0 j c (H j Hj)) in S2; auto; try lia; try discriminate.
  - destruct (F_lt bstep bs0 its EOF z0 k1 c i Fi) as [L1 L2]; try lia. destruct (F_Some bstep bs0 its EOF z0 k1 c i Fi) as [T1 T2]; try lia.
    assert (E : render bstep bs0 its None (c, i, k1) = (firstn (S (c + i) - c) (skipn c (map fst its)), (ap0 (known (map fst its) mat k1 (c + i)), ap1 (known (map fst its) mat k1 (c + i))))).
    { unfold render, seg_pens, known. cbn [view]. rewrite <- ins_EOF. replace (S (c + i) - c)%nat with (S i) by lia. reflexivity. }
    rewrite E. apply on_next.
    + rewrite mat_len. lia.
    + lia.
    + apply seen_iff. split; [exact L2|exact T1].
    + intros p Hp Sn. apply seen_iff in Sn. destruct Sn as [_ S2]. rewrite T2 in S2 by lia. discriminate.
    + intros j p Hj Hp Sn. apply seen_iff in Sn. destruct Sn as [S1 S2]. rewrite (F_None bstep bs0 its EOF z0 j c (J j Hj)) in S2; auto; try lia; try discriminate.
    + replace (S (c + i)) with (c + S i)%nat by lia. apply IH. lia.
Qed.
Lemma lim_safe : eot_safe mat -> forall j p, (j <= N)%nat -> settles j p -> T j p = true -> (p < length its)%nat.
Proof.
  intros Es j p Hj Sj Tj. pose proof (N_len its EOF) as EN. cbn in EN. pose proof (lam_at_nonneg bstep bs0 its EOF j) as Ln. unfold SegEager.settles in Sj.
  destruct (Nat.eq_dec p (length its)) as [->|]; [|lia]. assert (j = N) as -> by lia.
  assert (X : T N (length its) = Tf bstep bs0 its EOF z0 (length its)) by (unfold SegNext.T, Tf; now rewrite firstn_N).
  rewrite X, (eot_not_break bstep bs0 its EOF z0 eq_refl Es) in Tj. discriminate.
Qed.
End Delivery.

Section Facade.
Context {B : Type} (bstep : B -> Z -> B * Z * list Z).
Lemma online_slice os bs s text n : Forall op_ok os -> history deque_ops bstep os (NewSegmenter bs) = Ok s -> zlen text < MaxInt ->
  eot_safe (matrix bstep (brks s) (text ++ [0])) -> (length text + 1 < n)%nat ->
  exists s1 outs s', InitFromSlice deque_ops text s = Ok s1 /\ loop deque_ops bstep n s1 = Ok (outs, true, s') /\
    online text (matrix bstep (brks s) (text ++ [0])) (permitted (boz s) (1 <? zlen (brks s))) 0 0 outs.
Proof.
  intros Ho H Tt Es Hn. destruct (hist_state bstep os bs s Ho H) as (t & S & Hi).
  destruct (slice_start bstep s t text S Hi) as (s1 & t1 & I & S1 & A & C & Er). destruct (ones_sizes text) as [Sz Tt'].
  assert (EM : mat bstep (brks s) (ones text) EOF = matrix bstep (brks s) (text ++ [0])) by (unfold mat; rewrite irunes_EOF, ones_fst; reflexivity).
  destruct (loop_first bstep (brks s) (ones text) (boz s) Sz ltac:(rewrite Tt'; auto) (lim_safe bstep (brks s) (ones text) (boz s) ltac:(rewrite EM; auto)) None n 0 0 t1 A) as (outs & L & t2 & E & D & O).
  { unfold rs. rewrite ones_fst. exact C. }
  { rewrite N_len. unfold ones. rewrite map_length. lia. }
  destruct (loop_transfer bstep n s1 t1 _ S1 E) as (s' & E' & S'). exists s1, outs, s'. cbn [fst snd] in *. split; [auto|]. split; [auto|].
  rewrite O, <- EM. rewrite <- (ones_fst text) at 1. apply delivery_online; auto. lia.
Qed.
Lemma online_reader os bs s its n : Forall op_ok os -> history deque_ops bstep os (NewSegmenter bs) = Ok s -> Forall (fun it => 1 <= snd it) its -> sizes its < MaxInt ->
  let text := map fst its in eot_safe (matrix bstep (brks s) (text ++ [0])) -> (length its + 1 < n)%nat ->
  exists s1 outs s' l, Init deque_ops (mkrd its EOF) s = Ok s1 /\ loop deque_ops bstep n s1 = Ok (outs, true, s') /\
    online text (matrix bstep (brks s) (text ++ [0])) (permitted (boz s) (1 <? zlen (brks s))) 0 0 l /\
    outs = map (fun x => (firstn (Z.to_nat (init_limit (rbuf s))) (fst x), snd x)) l.
Proof.
  intros Ho H Sz Tt text Es Hn. destruct (hist_state bstep os bs s Ho H) as (t & S & Hi).
  destruct (reader_start bstep s t (mkrd its EOF) S Hi) as (s1 & t1 & I & S1 & A & C & Er). cbn [items fin] in A.
  assert (EM : mat bstep (brks s) its EOF = matrix bstep (brks s) (text ++ [0])) by (unfold mat; rewrite irunes_EOF; reflexivity).
  destruct (loop_first bstep (brks s) its (boz s) Sz Tt (lim_safe bstep (brks s) its (boz s) ltac:(rewrite EM; auto)) (Some (init_limit (rbuf s))) n 0 0 t1 A C) as (outs & L & t2 & E & D & O).
  { rewrite N_len. lia. }
  destruct (loop_transfer bstep n s1 t1 _ S1 E) as (s' & E' & S'). exists s1, outs, s', (map (render bstep (brks s) its None) L). cbn [fst snd] in *. split; [auto|]. split; [auto|].
  split; [rewrite <- EM; apply delivery_online; auto; lia|]. rewrite O, map_map. apply map_ext. intros [[d i] k]. reflexivity.
Qed.
End Facade.
