(* SegFirst.v -- which row of penalties a delivered segment gets: that of the first round in which its last position is settled and a break.
   Nothing is assumed about the breaker but that the end of the text itself is never a break. *)
From Coq Require Import List ZArith Lia Bool.
From Verif Require Import Base RuneWrite Segmenter SegSim SegSpec PrioQProofs SegProofs SegInv SegNext SegCut SegFacade SegTheorems SimpleWordProofs BreakSpec BreakFacade SegEager.
Import ListNotations.
Open Scope Z_scope.

Section First.
Context {B : Type} (bstep : B -> Z -> B * Z * list Z).
Context (bs0 : list B) (its : list (Z * Z)) (z0 : bool * bool).
Context (sizes1 : Forall (fun it => 1 <= snd it) its) (total : sizes its < MaxInt).
Notation OL := list_ops.
Notation rs := (rs its).
Notation N := (N its EOF).
Notation at_ := (at_ bstep bs0 its EOF z0).
Notation F := (F bstep bs0 its EOF z0).
Notation T := (T bstep bs0 its EOF z0).
Notation settles := (settles bstep bs0 its).

(* The segments delivered from round k on, c the start of the next segment: start, length - 1 and round of each. *)
Inductive delivery : nat -> nat -> list (nat * nat * nat) -> Prop :=
| del_end k c : (forall j, (k <= j <= N)%nat -> F j c = None) -> delivery k c []
| del_next k c k' i L : (k <= k' <= N)%nat -> (forall j, (k <= j < k')%nat -> F j c = None) -> F k' c = Some i ->
    delivery k' (c + S i) L -> delivery k c ((c, i, k') :: L).
Lemma delivery_det : forall k c L, delivery k c L -> forall L', delivery k c L' -> L = L'.
Proof.
  induction 1 as [k c H|k c k1 i L K J Fi D IH]; intros L' D'; inversion D' as [? ? H'|? ? k2 i' L2 K' J' Fi' D2]; subst; auto.
  - rewrite H in Fi' by lia. discriminate.
  - rewrite H' in Fi by lia. discriminate.
  - assert (k1 = k2) as <-.
    { destruct (Nat.lt_trichotomy k1 k2) as [X|[X|X]]; auto; exfalso; [rewrite J' in Fi by lia|rewrite J in Fi' by lia]; discriminate. }
    rewrite Fi in Fi'. injection Fi' as <-. f_equal. auto.
Qed.
(* nothing behind c was found before round k *)
Definition quiet (k c : nat) : Prop := forall p j, (c <= p)%nat -> (j < k)%nat -> settles j p -> T j p = false.
Lemma delivery_first : forall k c L, delivery k c L -> (c <= k <= N)%nat -> quiet k c ->
  Forall (fun x => let '(d, i, k') := x in (k' <= N)%nat /\ settles k' (d + i) /\ T k' (d + i) = true /\ forall j, (j < k')%nat -> settles j (d + i) -> T j (d + i) = false) L.
Proof.
  induction 1 as [k c H|k c k1 i L K J Fi D IH]; intros Hk Q; [constructor|].
  assert (Q1 : quiet k1 c).
  { intros p j Hp Hj Sj. destruct (le_lt_dec k j) as [L1|L1]; [|apply Q; auto]. apply (F_None bstep bs0 its EOF z0 j c); auto; try lia; try (apply J; lia). }
  destruct (F_lt bstep bs0 its EOF z0 k1 c i Fi) as [L1 L2]; try lia. destruct (F_Some bstep bs0 its EOF z0 k1 c i Fi) as [T1 T2]; try lia.
  constructor.
  - split; [lia|]. split; [exact L2|]. split; [exact T1|]. intros j Hj Sj. apply Q1; auto. lia.
  - apply IH; [lia|]. intros p j Hp Hj Sj. apply Q1; auto. lia.
Qed.

Definition render (mode : option Z) (x : nat * nat * nat) : list Z * (Z * Z) :=
  let '(d, i, k) := x in (view mode (firstn (S i) (skipn d rs)), seg_pens bstep bs0 its EOF k (d + i)).
Context (Lim : forall j p, (j <= N)%nat -> settles j p -> T j p = true -> (p < length its)%nat).
Lemma skip_skip (l : list Z) : forall c i, skipn i (skipn c l) = skipn (c + i) l.
Proof. induction l as [|a l IH]; intros c i; [now rewrite !skipn_nil|]. destruct c; [reflexivity|]. cbn [skipn Nat.add]. apply IH. Qed.
Lemma first_skip (l : list Z) a b : firstn (a + b) l = firstn a l ++ firstn b (skipn a l).
Proof. revert a b. induction l as [|x l IH]; intros a b; [now rewrite skipn_nil, !firstn_nil|]. destruct a; [reflexivity|]. cbn [Nat.add firstn skipn app]. now rewrite IH. Qed.
Lemma delivery_cat : forall k c L, delivery k c L -> (c <= k <= N)%nat -> forall n d i k', nth_error L n = Some (d, i, k') ->
  (c <= d)%nat /\ (d + i < length its)%nat /\ concat (map fst (firstn (S n) (map (render None) L))) = firstn (d + S i - c) (skipn c rs).
Proof.
  induction 1 as [k c H|k c k1 i L K J Fi D IH]; intros Hk n d i' k' E; [destruct n; discriminate|].
  destruct (F_lt bstep bs0 its EOF z0 k1 c i Fi) as [L1 L2]; try lia. destruct (F_Some bstep bs0 its EOF z0 k1 c i Fi) as [T1 T2]; try lia.
  pose proof (Lim k1 (c + i) ltac:(lia) L2 T1) as Li. cbn [map]. rewrite firstn_cons. cbn [map fst concat render view].
  destruct n as [|n].
  - injection E as <- <- <-. split; [lia|]. split; [lia|]. rewrite firstn_O. cbn [map concat]. rewrite app_nil_r. f_equal. lia.
  - cbn [nth_error] in E. destruct (IH ltac:(lia) n d i' k' E) as (A1 & A2 & A3). split; [lia|]. split; [lia|]. rewrite A3.
    replace (d + S i' - c)%nat with (S i + (d + S i' - (c + S i)))%nat by lia. rewrite first_skip, skip_skip. reflexivity.
Qed.

Lemma loop_first mode : forall n k c s, at_ k c s -> holds mode rs c (rbuf s) -> (N - c < n)%nat ->
  exists outs L s', loop OL bstep n s = Ok (outs, true, s') /\ delivery k c L /\ outs = map (render mode) L.
Proof.
  assert (EN : N = S (length its)) by (rewrite N_len; lia).
  induction n as [|n IH]; intros k c s H W Hn; [lia|].
  destruct (GS_bounds bstep bs0 its EOF z0 k c s (proj1 H)) as [C1 C2].
  assert (Li : forall j i, (c <= j)%nat -> (j <= N)%nat -> F j c = Some i -> (c + i < length its)%nat).
  { intros j i Hc Hj Fi. destruct (F_lt bstep bs0 its EOF z0 j c i Fi) as [L1 L2]; auto. destruct (F_Some bstep bs0 its EOF z0 j c i Fi) as [T1 T2]; auto. apply (Lim j); auto. }
  assert (Lrs : length rs = length its) by (unfold SegInv.rs; apply map_length).
  destruct (exec_step bstep bs0 its EOF z0 sizes1 total mode k c s H W) as (k' & K & J & [ST|ST]).
  { auto. }
  { intros _ j i Hj Fi. specialize (Li j i ltac:(lia) ltac:(lia) Fi). lia. }
  - destruct ST as (i & s1 & Fi & E & H1 & W1 & Er). cbn [loop]. rewrite E. cbn [rbind].
    destruct (F_lt bstep bs0 its EOF z0 k' c i Fi) as [L1 L2]; try lia. pose proof (Li k' i ltac:(lia) ltac:(lia) Fi) as L3.
    destruct (IH k' (c + S i)%nat s1 H1 W1 ltac:(lia)) as (outs & L & s2 & E2 & D & O).
    rewrite E2. cbn [rbind]. eexists _, ((c, i, k') :: L), s2. split; [reflexivity|]. split; [now apply (del_next k c k' i)|].
    rewrite O. cbn [map render]. f_equal. f_equal. f_equal.
    unfold SegInv.irunes, SegInv.ins. rewrite map_app, map_map. cbn [ar]. rewrite map_id. rewrite skipn_app, firstn_app.
    replace (S i - length (skipn c rs))%nat with 0%nat by (rewrite skipn_length; lia). now rewrite firstn_O, app_nil_r.
  - destruct ST as (s1 & Fn & Kn & E & A1 & H1 & Er). cbn [loop]. rewrite E. cbn [rbind]. eexists _, [], s1. split; [reflexivity|]. split; [|reflexivity].
    apply del_end. intros j Hj. destruct (Nat.eq_dec j k') as [->|]; auto. apply J. lia.
Qed.
End First.

(* the sizes of the runes do not matter *)
Lemma delivery_sizes {B : Type} (bstep : B -> Z -> B * Z * list Z) bs0 its its' z0 : map fst its = map fst its' -> forall k c L, delivery bstep bs0 its z0 k c L -> delivery bstep bs0 its' z0 k c L.
Proof.
  intros E. assert (EF : forall k c, F bstep bs0 its EOF z0 k c = F bstep bs0 its' EOF z0 k c).
  { intros k c. unfold F, queue, lam_at, mat, irunes, ins, rs. rewrite E. reflexivity. }
  assert (EN : N its EOF = N its' EOF) by (unfold N, ins, rs; rewrite E; reflexivity).
  induction 1 as [k c H|k c k1 i L K J Fi D IH].
  - apply del_end. intros j Hj. rewrite <- EF. apply H. rewrite EN. exact Hj.
  - apply (del_next bstep bs0 its' z0 k c k1 i); auto; [now rewrite <- EN| |now rewrite <- EF]. intros j Hj. rewrite <- EF. auto.
Qed.

(* one breaker in a new segmenter *)
Section Facade.
Context {B : Type} (bstep : B -> Z -> B * Z * list Z) (b : B).
Lemma eot_lim its : eot_safe (matrix bstep [b] (map fst its ++ [0])) ->
  forall j p, (j <= N its EOF)%nat -> settles bstep [b] its j p -> T bstep [b] its EOF (false, false) j p = true -> (p < length its)%nat.
Proof.
  intros Es j p Hj Sj Tj. rewrite <- irunes_EOF in Es. fold (mat bstep [b] its EOF) in Es.
  pose proof (N_len its EOF) as EN. cbn in EN. pose proof (lam_at_nonneg bstep [b] its EOF j) as Ln. unfold settles in Sj.
  destruct (Nat.eq_dec p (length its)) as [->|]; [|lia]. assert (j = N its EOF) as -> by lia.
  assert (X : T bstep [b] its EOF (false, false) (N its EOF) (length its) = Tf bstep [b] its EOF (false, false) (length its)) by (unfold T, Tf; now rewrite firstn_N).
  rewrite X, (eot_not_break bstep [b] its EOF (false, false) eq_refl Es) in Tj. discriminate.
Qed.
Lemma first_slice text n : zlen text < MaxInt -> (length text + 1 < n)%nat -> eot_safe (matrix bstep [b] (text ++ [0])) ->
  exists s1 outs L s', InitFromSlice deque_ops text (NewSegmenter [b]) = Ok s1 /\ loop deque_ops bstep n s1 = Ok (outs, true, s') /\
    delivery bstep [b] (ones text) (false, false) 0 0 L /\ outs = map (render bstep [b] (ones text) None) L.
Proof.
  intros Tt Hn Es. destruct (hist_state bstep [] [b] _ (Forall_nil _) eq_refl) as (t & S & Hi).
  destruct (slice_start bstep _ t text S Hi) as (s1 & t1 & I & S1 & A & C & Er). destruct (ones_sizes text) as [Sz Tt'].
  destruct (loop_first bstep [b] (ones text) (false, false) Sz ltac:(rewrite Tt'; auto) (eot_lim (ones text) ltac:(rewrite ones_fst; auto)) None n 0 0 t1 A) as (outs & L & t2 & E & D & O).
  { unfold rs. rewrite ones_fst. exact C. }
  { rewrite N_len. unfold ones. rewrite map_length. lia. }
  destruct (loop_transfer bstep n s1 t1 _ S1 E) as (s' & E' & S'). exists s1, outs, L, s'. cbn [fst snd] in *. auto.
Qed.
Lemma first_reader its n : Forall (fun it => 1 <= snd it) its -> sizes its < MaxInt -> (length its + 1 < n)%nat -> eot_safe (matrix bstep [b] (map fst its ++ [0])) ->
  exists s1 outs L s', Init deque_ops (mkrd its EOF) (NewSegmenter [b]) = Ok s1 /\ loop deque_ops bstep n s1 = Ok (outs, true, s') /\
    delivery bstep [b] its (false, false) 0 0 L /\ outs = map (render bstep [b] its (Some 4096)) L.
Proof.
  intros Sz Tt Hn Es. destruct (hist_state bstep [] [b] _ (Forall_nil _) eq_refl) as (t & S & Hi).
  destruct (reader_start bstep _ t (mkrd its EOF) S Hi) as (s1 & t1 & I & S1 & A & C & Er). cbn [items fin] in A.
  destruct (loop_first bstep [b] its (false, false) Sz Tt (eot_lim its Es) (Some 4096) n 0 0 t1 A C) as (outs & L & t2 & E & D & O).
  { rewrite N_len. lia. }
  destruct (loop_transfer bstep n s1 t1 _ S1 E) as (s' & E' & S'). exists s1, outs, L, s'. cbn [fst snd] in *. auto.
Qed.
(* a reader gets the penalties of the slice *)
Lemma first_both its n : Forall (fun it => 1 <= snd it) its -> sizes its < MaxInt -> (length its + 1 < n)%nat -> eot_safe (matrix bstep [b] (map fst its ++ [0])) ->
  exists s1 outs s2 s1' outs' s2', InitFromSlice deque_ops (map fst its) (NewSegmenter [b]) = Ok s1 /\ loop deque_ops bstep n s1 = Ok (outs, true, s2) /\
    Init deque_ops (mkrd its EOF) (NewSegmenter [b]) = Ok s1' /\ loop deque_ops bstep n s1' = Ok (outs', true, s2') /\
    outs' = map (fun o => (firstn (Z.to_nat 4096) (fst o), snd o)) outs.
Proof.
  intros Sz Tt Hn Es.
  assert (Tl : zlen (map fst its) < MaxInt).
  { assert (X : zlen its <= sizes its); [|unfold zlen in *; rewrite map_length; lia]. clear -Sz. induction Sz as [|x l H F IH]; [cbn; lia|]. rewrite zlen_cons. unfold sizes in *. cbn [map fold_right]. lia. }
  destruct (first_slice (map fst its) n Tl ltac:(rewrite map_length; auto) Es) as (s1 & outs & L & s2 & I & E & D & O).
  destruct (first_reader its n Sz Tt Hn Es) as (s1' & outs' & L' & s2' & I' & E' & D' & O').
  exists s1, outs, s2, s1', outs', s2'. split; [auto|]. split; [auto|]. split; [auto|]. split; [auto|].
  assert (L' = L) as ->.
  { apply (delivery_det bstep [b] its (false, false) 0 0); auto. apply (delivery_sizes bstep [b] (ones (map fst its))); auto. apply ones_fst. }
  rewrite O', O, map_map. apply map_ext. intros [[d i] k]. unfold render, seg_pens, mat, irunes, ins, rs. rewrite ones_fst. reflexivity.
Qed.
End Facade.
