(* SegNext.v -- whole runs of the segmenter: the buffer of the current segment, arbitrary call
   sequences, and the loop of Next() calls. *)
From Coq Require Import List ZArith Lia Bool.
From Verif Require Import Base RuneWrite Segmenter SegSpec PrioQProofs SegProofs SegInv.
Import ListNotations.
Open Scope Z_scope.

(* ---- the buffer ---- *)
(* most runes an unbacked buffer can hold *)
Definition limit (w : runewrite) : Z := Z.max (outcap w) (maxSegLen w).
Definition copying (lim : Z) (w : runewrite) : Prop :=
  backing w = None /\ outnil w = false /\ zlen (output w) <= outcap w /\ limit w = lim.

Lemma zlen_app {A} (a b : list A) : zlen (a ++ b) = zlen a + zlen b.
Proof. unfold zlen. rewrite app_length. lia. Qed.

Lemma WriteRune_copy lim w r : copying lim w ->
  copying lim (fst (WriteRune w r)) /\
  output (fst (WriteRune w r)) = (if zlen (output w) <? lim then output w ++ [r] else output w).
Proof.
  intros (H1 & H2 & H3 & H4). unfold WriteRune. rewrite H1. unfold limit in H4.
  destruct (Z.eqb_spec (outcap w) (zlen (output w))) as [E|E].
  - rewrite Z.geb_leb. destruct (Z.leb_spec (maxSegLen w) (outcap w)); cbn.
    + destruct (Z.ltb_spec (zlen (output w)) lim); [lia|]. repeat split; auto.
    + destruct (Z.ltb_spec (zlen (output w)) lim); [|lia].
      split; [|auto]. rewrite Z.gtb_ltb. unfold startBufSize.
      destruct (Z.ltb_spec (maxSegLen w) (Z.max (outcap w + 4096) (zlen (output w) + 1)));
        (repeat split; auto; cbn; rewrite ?zlen_app; unfold limit; cbn; unfold zlen in *; cbn; lia).
  - cbn. destruct (Z.ltb_spec (zlen (output w)) lim); [|unfold zlen in *; lia].
    repeat split; auto. cbn. rewrite zlen_app. unfold zlen in *; cbn; lia.
Qed.

Lemma writes_copy lim : forall l w, copying lim w ->
  copying lim (writes w l) /\
  output (writes w l) = output w ++ firstn (Z.to_nat (lim - zlen (output w))) l.
Proof.
  induction l as [|r l IH]; intros w H.
  - simpl. rewrite firstn_nil, app_nil_r. auto.
  - unfold writes. simpl. fold (writes (fst (WriteRune w r)) l).
    destruct (WriteRune_copy lim w r H) as [H' E]. destruct (IH _ H') as [H2 E2]. split; auto.
    rewrite E2, E. destruct (Z.ltb_spec (zlen (output w)) lim).
    + rewrite zlen_app. replace (zlen [r]) with 1 by reflexivity.
      replace (Z.to_nat (lim - zlen (output w))) with (S (Z.to_nat (lim - (zlen (output w) + 1)))) by lia.
      rewrite <- app_assoc. reflexivity.
    + replace (Z.to_nat (lim - zlen (output w))) with 0%nat by lia. reflexivity.
Qed.

Lemma mark_copy lim w : copying lim w -> 0 <= outcap w -> copying lim (SetMark w) /\ output (SetMark w) = [].
Proof. intros (H1 & H2 & H3 & H4) H0. unfold SetMark. rewrite H1. repeat split; auto. Qed.
Lemma copying_cap lim w : copying lim w -> 0 <= outcap w.
Proof. intros (_ & _ & H & _). unfold zlen in H. lia. Qed.

Lemma reset_copy lim w : copying lim w -> copying lim (Reset w None).
Proof.
  intros H. pose proof (copying_cap _ _ H) as C. destruct H as (H1 & H2 & H3 & H4). unfold Reset. rewrite H2. repeat split; auto.
  cbn. destruct (outcap w >? 0); auto. 
Qed.

Lemma writes_backed b : forall l w, backing w = Some b ->
  backing (writes w l) = Some b /\ rstart (writes w l) = rstart w /\ rend (writes w l) = rend w + zlen l.
Proof.
  induction l as [|r l IH]; intros w H.
  - unfold zlen. simpl. repeat split; auto. lia.
  - unfold writes. simpl. fold (writes (fst (WriteRune w r)) l). 
    assert (E0 : backing (fst (WriteRune w r)) = Some b /\ rstart (fst (WriteRune w r)) = rstart w /\ rend (fst (WriteRune w r)) = rend w + 1)
      by (unfold WriteRune; rewrite H; auto).
    destruct E0 as (F1 & F2 & F3). destruct (IH _ F1) as (E1 & E2 & E3).
    rewrite E1, E2, E3, F2, F3. repeat split; auto. unfold zlen. cbn [length]. lia.
Qed.

(* How the current segment is stored: copied with a limit (Some lim), or as a slice of the input. *)
Definition view (mode : option Z) (seg : list Z) : list Z :=
  match mode with Some lim => firstn (Z.to_nat lim) seg | None => seg end.
Definition holds (mode : option Z) (text : list Z) (c : nat) (w : runewrite) : Prop :=
  match mode with
  | Some lim => copying lim w
  | None => backing w = Some text /\ rend w = Z.of_nat c
  end.

Lemma zslice_eq {A} (l : list A) a n : (a + n <= length l)%nat ->
  zslice l (Z.of_nat a) (Z.of_nat a + Z.of_nat n) = Some (firstn n (skipn a l)).
Proof.
  intros. unfold zslice, zlen.
  destruct (Z.leb_spec 0 (Z.of_nat a)), (Z.leb_spec (Z.of_nat a) (Z.of_nat a + Z.of_nat n)),
    (Z.leb_spec (Z.of_nat a + Z.of_nat n) (Z.of_nat (length l))); try lia. cbn [andb].
  rewrite Nat2Z.id. replace (Z.to_nat (Z.of_nat a + Z.of_nat n - Z.of_nat a)) with n by lia. reflexivity.
Qed.

Lemma deliver_view mode text c w seg : holds mode text c w ->
  (mode = None -> seg = firstn (length seg) (skipn c text) /\ (c + length seg <= length text)%nat) ->
  holds mode text (c + length seg) (writes (SetMark w) seg) /\
  Runes (writes (SetMark w) seg) = Some (view mode seg).
Proof.
  intros H HN. destruct mode as [lim|].
  - simpl in *. destruct (mark_copy lim w H (copying_cap _ _ H)) as [M E].
    destruct (writes_copy lim seg (SetMark w) M) as [W E2]. split; auto.
    unfold Runes. destruct W as (-> & _). rewrite E2, E. simpl. unfold zlen. simpl. now rewrite Z.sub_0_r.
  - destruct (HN eq_refl) as [E L]. simpl in H. destruct H as [Hb Hr].
    assert (Mb : backing (SetMark w) = Some text /\ rstart (SetMark w) = Z.of_nat c /\ rend (SetMark w) = Z.of_nat c).
    { unfold SetMark. rewrite Hb. cbn. auto. }
    destruct Mb as (M1 & M2 & M3). destruct (writes_backed text seg _ M1) as (W1 & W2 & W3).
    simpl. rewrite W3, M3. unfold zlen. split; [split; [auto|lia]|].
    unfold Runes. rewrite W1, W2, W3, M2, M3. unfold zlen. rewrite zslice_eq by auto. now rewrite <- E.
Qed.

Section Runs.
Context {B : Type} (bstep : B -> Z -> B * Z * list Z).
Context (bs0 : list B) (its : list (Z * Z)) (f : error) (z0 : bool * bool).
Notation SL := (state (list atom) B).
Notation OL := list_ops.
Notation rs := (rs its).
Notation ins := (ins its f).
Notation irunes := (irunes its f).
Notation mat := (mat bstep bs0 its f).
Notation N := (N its f).
Notation lam_at := (lam_at bstep bs0 its f).
Notation pos_at := (pos_at its).
Notation queue := (queue bstep bs0 its f).
Notation test0 := (test0 bs0 z0).
Notation GS := (GS bstep bs0 its f z0).
Notation find_at := (find_at bstep bs0 its f z0).

Lemma effs_runes i m : (i < length m)%nat -> nth i (map ar (effs ins m)) 0 = nth i irunes 0.
Proof.
  intros H. change 0 with (ar zeroAtom) at 1. rewrite map_nth. rewrite effs_nth by auto. cbn.
  unfold SegInv.irunes. change 0 with (ar zeroAtom) at 1. now rewrite map_nth.
Qed.
Lemma nth_firstn {A} : forall k (l : list A) i d, (i < k)%nat -> nth i (firstn k l) d = nth i l d.
Proof. induction k; intros [|x l] i d H; simpl; try lia; destruct i; auto. apply IHk. lia. Qed.

Lemma irunes_len : length irunes = N.
Proof. unfold SegInv.irunes, SegInv.N. apply map_length. Qed.
Lemma effs_irunes k : (k <= N)%nat -> map ar (effs ins (firstn k mat)) = firstn k irunes.
Proof.
  intros H. apply (nth_ext _ _ 0 0).
  - rewrite map_length, effs_len, !firstn_length, (mat_len bstep bs0 its f), irunes_len. lia.
  - intros n Hn. rewrite map_length, effs_len in Hn. rewrite effs_runes by auto.
    rewrite firstn_length, (mat_len bstep bs0 its f) in Hn. rewrite nth_firstn by lia. reflexivity.
Qed.
Lemma queue_runes k c : (k <= N)%nat -> map ar (queue k c) = skipn c (firstn k irunes).
Proof. intros. unfold SegInv.queue. rewrite <- skipn_map. now rewrite effs_irunes. Qed.
Lemma seg_runes k c n : (c + n <= k)%nat -> (k <= N)%nat ->
  map ar (firstn n (queue k c)) = firstn n (skipn c irunes).
Proof.
  intros. rewrite <- firstn_map, queue_runes by auto.
  rewrite skipn_firstn_comm, firstn_firstn. f_equal. lia.
Qed.
Lemma GS_bounds k c s : GS k c s -> (c <= k)%nat /\ (k <= N)%nat.
Proof. intros [d [_ H]]. split; [apply (G_c _ _ _ _ _ _ _ _ _ H)|apply (G_k _ _ _ _ _ _ _ _ _ H)]. Qed.

Lemma front_ge k c bp bound : 0 <= bp -> front its k c bp bound < Z.of_nat (k - c) \/ Z.of_nat (k - c) <= bp.
Proof. intros. pose proof (front_le its k c bp bound). lia. Qed.

(* ---- any sequence of calls, text copied from a reader ---- *)
Theorem run_tiles lim : forall cs k c s, GS k c s -> copying lim (rbuf s) ->
  exists segs s' k' c', run OL bstep cs s = Ok (map (fun o => match o with
                                            | Some (seg, p) => Some (firstn (Z.to_nat lim) seg, p)
                                            | None => None end) segs, s') /\
    GS k' c' s' /\ copying lim (rbuf s') /\ (c <= c')%nat /\
    firstn c' irunes = firstn c irunes ++ concat (map (fun o => match o with Some (seg, _) => seg | None => [] end) segs).
Proof.
  induction cs as [|cl cs IH]; intros k c s H W.
  - exists [], s, k, c. simpl. split; auto. split; auto. split; auto. split; auto. now rewrite app_nil_r.
  - cbn [run exec]. unfold exec.
    destruct (next_ok bstep bs0 its f z0 (bound_of cl) k c s H) as (b & k1 & s1 & E & K & _ & _ & R).
    rewrite E. cbn [rbind]. destruct b.
    + cbn zeta in R. destruct R as (Hb & H1 & Rb & Lp & _).
      set (n := Z.to_nat (front its k1 c (brk bstep bs0 its f z0 k k1 c (bound_of cl) s) (bound_of cl) + 1)) in *.
      destruct (GS_bounds _ _ _ H1) as [C1 C2].
      destruct (deliver_view (Some lim) rs c (rbuf s) (map ar (firstn n (queue k1 c))) W) as [D1 D2]; [discriminate|].
      rewrite <- Rb in D1, D2. unfold Text. rewrite D2. cbn [lift rbind].
      destruct (IH k1 (c + n)%nat s1 H1 D1) as (segs & s2 & k2 & c2 & E2 & G2 & W2 & L2 & T2).
      rewrite E2. cbn [rbind].
      exists (Some (map ar (firstn n (queue k1 c)), Penalties s1) :: segs), s2, k2, c2.
      split; [reflexivity|]. split; auto. split; auto. split; [lia|]. rewrite T2. cbn [map concat]. rewrite app_assoc. f_equal.
      rewrite seg_runes by lia. rewrite <- (firstn_skipn c irunes) at 1.
      rewrite firstn_app. rewrite firstn_firstn. replace (Nat.min (c + n) c) with c by lia. f_equal. f_equal.
      rewrite firstn_length, irunes_len. lia.
    + destruct R as (H1 & _ & _ & R).
      assert (W1 : copying lim (rbuf s1)).
      { destruct R as [(-> & _)|[(-> & _)|[(-> & _)|(-> & _)]]]; auto; now apply reset_copy. }
      cbn [rbind]. destruct (IH k1 c s1 H1 W1) as (segs & s2 & k2 & c2 & E2 & G2 & W2 & L2 & T2).
      rewrite E2. cbn [rbind]. exists (None :: segs), s2, k2, c2. split; [reflexivity|]. auto.
Qed.

(* ---- Next() only ---- *)
Context (sizes1 : Forall (fun it => 1 <= snd it) its) (total : sizes its < MaxInt).

Lemma sizes_app a b : sizes (a ++ b) = sizes a + sizes b.
Proof. unfold sizes. rewrite map_app, fold_add_app. reflexivity. Qed.
Lemma sizes_len l : Forall (fun it : Z * Z => 1 <= snd it) l -> zlen l <= sizes l.
Proof. induction 1; unfold zlen, sizes in *; simpl in *; lia. Qed.
Lemma pos_le k : 0 <= pos_at k <= sizes its.
Proof.
  unfold SegInv.pos_at. rewrite <- (firstn_skipn k its) at 3. rewrite sizes_app.
  assert (F1 : Forall (fun it : Z * Z => 1 <= snd it) (firstn k its) /\ Forall (fun it : Z * Z => 1 <= snd it) (skipn k its)).
  { rewrite <- Forall_app. now rewrite firstn_skipn. }
  destruct F1 as [F1 F2]. apply sizes_len in F1. apply sizes_len in F2. unfold zlen in *. lia.
Qed.
Lemma N_max : Z.of_nat N <= MaxInt.
Proof.
  rewrite N_len. pose proof (sizes_len its sizes1). unfold zlen in *. destruct f; lia.
Qed.

(* the first breakable position in the decided part of the queue *)
Definition F (k c : nat) : option nat := ffind test0 (Z.to_nat (Z.of_nat (k - c) - lam_at k)) (queue k c).

Lemma find_at_max k c : (c <= k)%nat -> (k <= N)%nat ->
  find_at k c MaxInt = match F k c with Some i => Z.of_nat i | None => -1 end.
Proof.
  intros Hc Hk. unfold SegInv.find_at, fbo, F. pose proof N_max. pose proof (lam_at_nonneg bstep bs0 its f k) as Ln.
  unfold bound_dist. rewrite Z.ltb_irrefl. change (MaxInt <? 0) with false. rewrite orb_false_r.
  destruct (Z.ltb_spec (Z.of_nat (k - c) - lam_at k - 1) 0) as [L|L].
  - replace (Z.to_nat (Z.of_nat (k - c) - lam_at k)) with 0%nat by lia. destruct (queue k c); auto.
  - replace (Z.min (Z.of_nat (k - c) - lam_at k) (MaxInt + 1)) with (Z.of_nat (k - c) - lam_at k) by lia.
    destruct (ffind _ _ _); auto. destruct (Z.leb_spec (MaxInt + 1) (Z.of_nat (k - c) - lam_at k)); auto. lia.
Qed.

Lemma front_max k c i : (c <= k)%nat -> (k <= N)%nat -> (i < k - c)%nat -> front its k c (Z.of_nat i) MaxInt = Z.of_nat i.
Proof.
  intros. unfold front. pose proof (pos_le k). rewrite Z.geb_leb.
  destruct (Z.leb_spec MaxInt (pos_at k - Z.of_nat (k - c) + Z.of_nat i)); auto. lia.
Qed.

Definition at_ (k c : nat) (s : SL) : Prop :=
  GS k c s /\ bpos s = match F k c with Some i => Z.of_nat i | None => -1 end.

Lemma F_lt k c i : F k c = Some i -> (c <= k)%nat -> (k <= N)%nat -> (i < k - c)%nat /\ Z.of_nat (c + i) < Z.of_nat k - lam_at k.
Proof.
  intros H Hc Hk. apply ffind_Some in H. destruct H as (H1 & H2 & _). pose proof (lam_at_nonneg bstep bs0 its f k).
  pose proof (queue_len bstep bs0 its f k c Hc Hk) as Q. unfold zlen in Q. lia.
Qed.

Lemma Next_step k c s : at_ k c s ->
  exists b k' s', Next OL bstep s = Ok (b, s') /\ (k <= k' <= N)%nat /\
    (forall j, (k <= j < k')%nat -> F j c = None) /\
    (if b then exists i, F k' c = Some i /\ at_ k' (c + S i) s' /\
        rbuf s' = writes (SetMark (rbuf s)) (map ar (firstn (S i) (queue k' c))) /\
        lastp s' = pens_last (0, 0) (firstn (S i) (queue k' c)) /\ err s' = err s
     else F k' c = None /\ k' = N /\ atEOF s' = true /\ at_ k' c s' /\ rbuf s' = Reset (rbuf s) None /\
          (err s' = err s \/ (err s' = upd_err f (err s) /\ f <> EOF))).
Proof.
  intros [H Hb]. destruct (GS_bounds _ _ _ H) as [C1 C2]. unfold Next.
  destruct (next_ok bstep bs0 its f z0 MaxInt k c s H) as (b & k' & s' & E & K & Lt & J & R).
  exists b, k', s'. split; auto. split; auto.
  assert (BK : brk bstep bs0 its f z0 k k' c MaxInt s = match F k' c with Some i => Z.of_nat i | None => -1 end).
  { unfold brk. destruct (Nat.eqb_spec k' k) as [->|]; auto. apply find_at_max; lia. }
  split.
  { intros j Hj. destruct (Nat.eq_dec j k) as [->|].
    - specialize (Lt ltac:(lia)). rewrite Hb in Lt. destruct (F k c); auto; lia.
    - specialize (J j ltac:(lia)). rewrite find_at_max in J by lia. destruct (F j c); auto; lia. }
  destruct b.
  - cbn zeta in R. rewrite BK in R. destruct R as (Hp & H1 & Rb & Lp & Bp & Er & _).
    destruct (F k' c) as [i|] eqn:Fi; [|lia]. destruct (F_lt k' c i Fi ltac:(lia) ltac:(lia)) as [L1 L2].
    rewrite front_max in * by lia. replace (Z.to_nat (Z.of_nat i + 1)) with (S i) in * by lia.
    exists i. split; auto. split; [|auto]. split; auto.
    destruct (Z.ltb_spec (Z.of_nat i) 0); [lia|]. rewrite Bp. apply find_at_max; lia.
  - rewrite BK in R. destruct R as (H1 & _ & Bp & R). pose proof (pos_le k') as P.
    pose proof (lam_at_nonneg bstep bs0 its f k') as Ln.
    assert (X : forall k', GS k' c s' -> at_ k' c s' \/ True) by auto.
    destruct R as [(_ & _ & R & _)|[(R1 & R2 & R3 & R4 & R5)|[(_ & _ & _ & R)|(R1 & R3 & R2 & R4 & R5 & R6)]]]; try lia.
    + assert (Fn : F k' c = None) by (destruct (F k' c); auto; lia).
      split; auto. split; auto. split; auto. split; [split; [auto|rewrite Fn in *; auto]|]. split; [auto|]. auto.
    + assert (Fn : F k' c = None) by (destruct (F k' c); auto; lia).
      split; auto. split; auto. split; auto. split; [split; [auto|rewrite Fn in *; auto]|]. split; [auto|]. auto.
Qed.

(* ---- the loop of Next() calls ---- *)
Definition seg_pens (k p : nat) : Z * Z := let a := eff ins (firstn k mat) p in (ap0 a, ap1 a).

Lemma pens_last_snoc l a x : pens_last x (l ++ [a]) = (ap0 a, ap1 a).
Proof. unfold pens_last. rewrite fold_left_app. reflexivity. Qed.

Lemma queue_nth k c i : (c + i < k)%nat -> (k <= N)%nat -> nth i (queue k c) zeroAtom = eff ins (firstn k mat) (c + i).
Proof.
  intros. unfold SegInv.queue. 
  assert (L : length (firstn k mat) = k) by (rewrite firstn_length, (mat_len bstep bs0 its f); lia).
  rewrite <- (effs_nth ins (firstn k mat) (c + i) zeroAtom) by (rewrite L; auto).
  generalize (effs ins (firstn k mat)) as l. clear. induction c; intros l; simpl; auto. destruct l; simpl; auto. destruct i; auto.
Qed.

Lemma seg_last k c i : (c + i < k)%nat -> (k <= N)%nat ->
  pens_last (0, 0) (firstn (S i) (queue k c)) = seg_pens k (c + i).
Proof.
  intros. assert (L : (i < length (queue k c))%nat).
  { pose proof (queue_len bstep bs0 its f k c ltac:(lia) ltac:(lia)) as Q. unfold zlen in Q. lia. }
  rewrite (firstn_snoc (queue k c) i zeroAtom L), pens_last_snoc, queue_nth by auto. reflexivity.
Qed.

(* A position breaks at time k *)
Definition T (k p : nat) : bool := test0 (eff ins (firstn k mat) p).
Lemma F_Some k c i : F k c = Some i -> (c <= k)%nat -> (k <= N)%nat ->
  T k (c + i) = true /\ (forall p, (c <= p < c + i)%nat -> T k p = false).
Proof.
  intros H Hc Hk. pose proof (F_lt k c i H Hc Hk) as [L1 L2]. apply ffind_Some in H. destruct H as (H1 & H2 & (a & E & Ta) & H4).
  assert (Q : length (queue k c) = (k - c)%nat).
  { pose proof (queue_len bstep bs0 its f k c Hc Hk) as Q. unfold zlen in Q. lia. }
  split.
  - unfold T. rewrite <- queue_nth by lia. now rewrite (nth_error_nth _ _ zeroAtom E).
  - intros p Hp. unfold T. replace p with (c + (p - c))%nat by lia. rewrite <- queue_nth by lia.
    apply (H4 (p - c)%nat); [lia|]. apply nth_error_nth'. lia.
Qed.
Lemma F_None k c : F k c = None -> (c <= k)%nat -> (k <= N)%nat ->
  forall p, (c <= p)%nat -> Z.of_nat p < Z.of_nat k - lam_at k -> T k p = false.
Proof.
  intros H Hc Hk p Hp1 Hp2. pose proof (lam_at_nonneg bstep bs0 its f k).
  assert (Q : length (queue k c) = (k - c)%nat).
  { pose proof (queue_len bstep bs0 its f k c Hc Hk) as Q. unfold zlen in Q. lia. }
  unfold T. replace p with (c + (p - c))%nat by lia. rewrite <- queue_nth by lia.
  apply (ffind_None _ _ _ H (p - c)%nat); [lia|]. apply nth_error_nth'. lia.
Qed.

(* One round, with the text delivered. *)
Lemma exec_step mode k c s : at_ k c s -> holds mode rs c (rbuf s) ->
  (mode = None -> f = EOF) ->
  (mode = None -> forall j i, (k <= j <= N)%nat -> F j c = Some i -> (c + S i <= length its)%nat) ->
  exists k', (k <= k' <= N)%nat /\ (forall j, (k <= j < k')%nat -> F j c = None) /\
    ((exists i s', F k' c = Some i /\
        exec OL bstep CNext s = Ok (Some (view mode (firstn (S i) (skipn c irunes)), seg_pens k' (c + i)), s') /\
        at_ k' (c + S i) s' /\ holds mode rs (c + S i) (rbuf s') /\ err s' = err s) \/
     (exists s', F k' c = None /\ k' = N /\ exec OL bstep CNext s = Ok (None, s') /\ atEOF s' = true /\ at_ k' c s' /\
        (err s' = err s \/ (err s' = upd_err f (err s) /\ f <> EOF)))).
Proof.
  intros H W Hf Hm. destruct (Next_step k c s H) as (b & k' & s' & E & K & J & R).
  destruct (GS_bounds k c s (proj1 H)) as [C1 C2].
  exists k'. split; auto. split; auto. unfold exec, Next, bound_of in *. rewrite E. cbn [rbind]. destruct b.
  - left. destruct R as (i & Fi & H1 & Rb & Lp & Er). exists i, s'. split; auto.
    destruct (F_lt k' c i Fi ltac:(lia) ltac:(lia)) as [L1 L2].
    assert (LS : length (map ar (firstn (S i) (queue k' c))) = S i).
    { rewrite map_length, firstn_length. pose proof (queue_len bstep bs0 its f k' c ltac:(lia) ltac:(lia)) as Q.
      unfold zlen in Q. lia. }
    destruct (deliver_view mode rs c (rbuf s) (map ar (firstn (S i) (queue k' c))) W) as [D1 D2].
    { intros M. specialize (Hm M k' i ltac:(lia) Fi). rewrite LS. split; [|unfold SegInv.rs; rewrite map_length; lia].
      rewrite seg_runes by lia. unfold SegInv.irunes, SegInv.ins. rewrite (Hf M), map_app, map_map. cbn [ar].
      rewrite map_id. rewrite skipn_app, firstn_app. 
      replace (S i - length (skipn c rs))%nat with 0%nat by (rewrite skipn_length; unfold SegInv.rs; rewrite map_length; lia).
      rewrite firstn_O, app_nil_r. reflexivity. }
    rewrite <- Rb in D1, D2. rewrite LS in D1. unfold Text. rewrite D2. cbn [lift rbind]. unfold Penalties.
    rewrite Lp, seg_last by lia. rewrite seg_runes by lia. auto.
  - right. destruct R as (R1 & R2 & R3 & R4 & R5 & R6). exists s'. auto 10.
Qed.
End Runs.
