(* SegTheorems.v -- the segmenter over the real ring buffer: statements about whole sessions. *)
From Coq Require Import List ZArith Lia Bool.
From Verif Require Import Base RuneWrite Segmenter SegSpec PrioQProofs SegProofs SegInv SegNext SegCut SegSim SegFacade.
From Verif Require Deque.
Import ListNotations.
Open Scope Z_scope.

(* ---- contract of single breakers => contract of the whole matrix ---- *)
Section Contracts.
Context {B : Type} (bstep : B -> Z -> B * Z * list Z).
Lemma answers_len : forall rs b, length (answers bstep b rs) = length rs.
Proof. induction rs; intros; simpl; auto. Qed.
Lemma matrix_answers : forall rs bs j, (j < length rs)%nat ->
  nth j (matrix bstep bs rs) [] = map (fun b => nth j (answers bstep b rs) (0, [])) bs.
Proof.
  induction rs as [|r t IH]; intros bs j H; simpl in H; [lia|]. destruct j as [|j].
  - reflexivity.
  - cbn [matrix nth]. rewrite IH by lia. unfold bs_next. rewrite map_map. reflexivity.
Qed.
Lemma contract_obeys bs rs : Forall (fun b => breaker_obeys bstep b rs) bs -> obeys (matrix bstep bs rs).
Proof.
  intros H j Hj. rewrite matrix_len in Hj. rewrite !matrix_answers by lia.
  assert (M : forall l x, In x l -> x <= fold_right Z.max 0 l).
  { induction l as [|y l IHl]; simpl; intros x Hx; [contradiction|]. destruct Hx as [->|Hx]; [lia|]. specialize (IHl _ Hx). lia. }
  assert (M2 : forall l n, 0 <= n -> (forall x, In x l -> x <= n) -> fold_right Z.max 0 l <= n).
  { induction l; simpl; intros n Hn Hx; [lia|]. pose proof (Hx a (or_introl eq_refl)). specialize (IHl n Hn (fun x I => Hx x (or_intror I))). lia. }
  assert (P : forall l, 0 <= fold_right Z.max 0 l) by (induction l; simpl; lia).
  assert (U : forall b, In b bs -> Z.max 0 (fst (nth j (answers bstep b rs) (0, []))) <= longest (map (fun b => nth j (answers bstep b rs) (0, [])) bs)).
  { intros b Hb. unfold longest. rewrite map_map. apply Z.max_lub; [apply P|]. apply M.
    exact (in_map (fun b0 => fst (nth j (answers bstep b0 rs) (0, []))) bs b Hb). }
  rewrite Forall_forall in H. split.
  - unfold longest at 1. rewrite map_map. apply M2.
    + unfold longest. pose proof (P (map fst (map (fun b => nth j (answers bstep b rs) (0, [])) bs))). lia.
    + intros x Hx. apply in_map_iff in Hx. destruct Hx as (b & <- & Hb). destruct (H b Hb j Hj) as [X _].
      specialize (U b Hb). lia.
  - intros i Hi. assert (Z0 : forall b, In b bs -> nth i (snd (nth (S j) (answers bstep b rs) (0, []))) 0 = 0).
    { intros b Hb. destruct (H b Hb j Hj) as [_ X]. apply X. specialize (U b Hb). lia. }
    split.
    + unfold prim. destruct bs as [|b t]; auto. cbn [map]. apply Z0. simpl; auto.
    + unfold sec. destruct bs as [|b t]; auto. cbn [map tl].
      assert (Q : forall l, (forall b, In b l -> nth i (snd (nth (S j) (answers bstep b rs) (0, []))) 0 = 0) ->
         fold_right Z.add 0 (map (fun a : answer => nth i (snd a) 0) (map (fun b => nth (S j) (answers bstep b rs) (0, [])) l)) = 0).
      { induction l; intros Hl; simpl; auto. rewrite Hl by (simpl; auto). rewrite IHl; auto. intros; apply Hl; simpl; auto. }
      apply Q. intros; apply Z0. simpl; auto.
Qed.
End Contracts.

(* ---- facts about cutting ---- *)
Lemma cut_app_last test : forall l a o, test a = false -> cut test (l ++ [a]) o = cut test l o.
Proof. induction l as [|b l IH]; intros a o H; simpl; [now rewrite H|]. destruct (test b); rewrite ?IH; auto. Qed.
Lemma cut_concat test : forall l a o, test a = true ->
  concat (map fst (cut test (l ++ [a]) o)) = o ++ map ar (l ++ [a]).
Proof.
  induction l as [|b l IH]; intros a o H; simpl.
  - rewrite H. simpl. now rewrite app_nil_r.
  - destruct (test b); simpl; rewrite IH by auto; [now rewrite <- app_assoc|now rewrite <- app_assoc].
Qed.
Lemma ends_cut test : forall l k o e p,
  In (e, p) (ends k (cut test l o)) <->
  exists i a, nth_error l i = Some a /\ test a = true /\ e = (k + length o + S i)%nat /\ p = (ap0 a, ap1 a).
Proof.
  induction l as [|b l IH]; intros k o e p; simpl.
  - split; [contradiction|]. intros (i & a & H & _). destruct i; discriminate.
  - destruct (test b) eqn:Tb; simpl.
    + rewrite IH, app_length. simpl. split.
      * intros [E|(i & a & H1 & H2 & H3 & H4)].
        { inversion E; subst. exists 0%nat, b. simpl. repeat split; auto; lia. }
        { exists (S i), a. simpl. repeat split; auto; lia. }
      * intros ([|i] & a & H1 & H2 & H3 & H4); simpl in H1.
        { inversion H1; subst. left. f_equal; lia. }
        { right. exists i, a. repeat split; auto; lia. }
    + rewrite IH, app_length. simpl. split.
      * intros (i & a & H1 & H2 & H3 & H4). exists (S i), a. simpl. repeat split; auto; lia.
      * intros ([|i] & a & H1 & H2 & H3 & H4); simpl in H1; [congruence|]. exists i, a. repeat split; auto; lia.
Qed.

(* ---- sessions over the ring buffer ---- *)
Definition texts_of (its : list (Z * Z)) : list Z := map fst its.
Lemma ins_EOF its : ins its EOF = inputs (map fst its).
Proof. reflexivity. Qed.
Lemma irunes_EOF its : irunes its EOF = map fst its ++ [0].
Proof. unfold irunes, ins, rs. rewrite map_app, map_map. cbn [ar]. now rewrite map_id. Qed.
Lemma ones_fst b : map fst (ones b) = b.
Proof. unfold ones. rewrite map_map. cbn. apply map_id. Qed.
Lemma ones_sizes b : Forall (fun it : Z * Z => 1 <= snd it) (ones b) /\ sizes (ones b) = zlen b.
Proof.
  split; [apply Forall_forall; intros x Hx; apply in_map_iff in Hx; destruct Hx as (y & <- & _); simpl; lia|].
  unfold sizes, ones, zlen. induction b as [|a b IHb]; auto. cbn [map fold_right snd length]. rewrite IHb. lia.
Qed.

Section Sessions.
Context {B : Type} (bstep : B -> Z -> B * Z * list Z).
Notation SD := (state (@Deque.deque atom) B).
Notation OD := deque_ops.

(* the test in force *)
Definition test_of (z : bool * bool) (bs : list B) : atom -> bool := breakable z (zlen bs >? 1).
Definition spec_of (z : bool * bool) (bs : list B) (rs : list Z) : list (list Z * (Z * Z)) :=
  let m := matrix bstep bs (rs ++ [0]) in cut (permitted z (1 <? zlen bs)) (firstn (reach m) (effs (inputs rs) m)) [].
(* the test of the program is the one of the specification *)
Lemma permits_ok zero p : isPossibleBreak p zero = permits zero p.
Proof.
  unfold isPossibleBreak, permits, InfinitePenalty. rewrite Z.geb_leb. destruct (Z.leb_spec 10000 p), (Z.ltb_spec p 10000); try lia; auto.
  destruct zero, (p =? 0); reflexivity.
Qed.
Lemma test_of_ok z bs a : permitted z (1 <? zlen bs) a = test_of z bs a.
Proof. unfold permitted, test_of, breakable. rewrite !permits_ok, Z.gtb_ltb. reflexivity. Qed.
Lemma cut_ext t1 t2 : (forall a : atom, t1 a = t2 a) -> forall l o, cut t1 l o = cut t2 l o.
Proof. intros E. induction l as [|a l IH]; intros o; cbn; auto. rewrite E, !IH. reflexivity. Qed.
Lemma spec_impl z bs rs : spec_of z bs rs = let m := matrix bstep bs (rs ++ [0]) in cut (test_of z bs) (firstn (reach m) (effs (inputs rs) m)) [].
Proof. unfold spec_of. cbv zeta. apply cut_ext. intros a. apply test_of_ok. Qed.

Lemma hist_state os bs (s : SD) : Forall op_ok os -> history OD bstep os (NewSegmenter bs) = Ok s ->
  exists t, ssim s t /\ hinv bstep t.
Proof.
  intros Ho H. pose proof (sim_history bstep os (NewSegmenter bs) (NewSegmenter bs) (sim_new bs)) as R.
  rewrite H in R. destruct (history list_ops bstep os (NewSegmenter bs)) as [t| |] eqn:E; simpl in R; try contradiction.
  exists t. split; auto. exact (hinv_history bstep os _ _ (hinv_new bstep bs) Ho E).
Qed.
Lemma ssim_fields (s : SD) t : ssim s t -> brks s = brks t /\ boz s = boz t /\ rbuf s = rbuf t /\ err s = err t /\ atEOF s = atEOF t /\ bpos s = bpos t.
Proof. unfold ssim. intuition. Qed.

(* the list state reached by Init / InitFromSlice *)
Lemma reader_start (s : SD) t rd : ssim s t -> hinv bstep t ->
  exists s1 t1, Init OD rd s = Ok s1 /\ ssim s1 t1 /\ at_ bstep (brks s) (items rd) (fin rd) (boz s) 0 0 t1 /\
    copying (init_limit (rbuf s)) (rbuf t1) /\ err t1 = err s.
Proof.
  intros S H. destruct (ssim_fields s t S) as (E1 & E2 & E3 & E4 & _). destruct (Init_at bstep rd t H) as (t1 & I & A & C & Er).
  pose proof (sim_Init rd s t S) as R. rewrite I in R. destruct (Init OD rd s) as [s1| |]; simpl in R; try contradiction.
  exists s1, t1. rewrite E1, E2, E3, E4. auto.
Qed.
Lemma slice_start (s : SD) t b : ssim s t -> hinv bstep t ->
  exists s1 t1, InitFromSlice OD b s = Ok s1 /\ ssim s1 t1 /\ at_ bstep (brks s) (ones b) EOF (boz s) 0 0 t1 /\
    holds None b 0 (rbuf t1) /\ err t1 = err s.
Proof.
  intros S H. destruct (ssim_fields s t S) as (E1 & E2 & E3 & E4 & _). destruct (Slice_at bstep b t H) as (t1 & I & A & C1 & C2 & Er).
  pose proof (sim_InitFromSlice b s t S) as R. rewrite I in R. destruct (InitFromSlice OD b s) as [s1| |]; simpl in R; try contradiction.
  exists s1, t1. rewrite E1, E2, E4. simpl. auto 10.
Qed.
Lemma loop_transfer n (s : SD) t x : ssim s t -> loop list_ops bstep n t = Ok x ->
  exists s', loop OD bstep n s = Ok (fst x, s') /\ ssim s' (snd x).
Proof.
  intros S E. pose proof (sim_loop bstep n s t S) as R. rewrite E in R.
  destruct (loop OD bstep n s) as [[y s']| |]; simpl in R; try contradiction. destruct R as [<- R]. eauto.
Qed.
Lemma run_transfer cs (s : SD) t x : ssim s t -> run list_ops bstep cs t = Ok x ->
  exists s', run OD bstep cs s = Ok (fst x, s') /\ ssim s' (snd x).
Proof.
  intros S E. pose proof (sim_run bstep cs s t S) as R. rewrite E in R.
  destruct (run OD bstep cs s) as [[y s']| |]; simpl in R; try contradiction. destruct R as [<- R]. eauto.
Qed.

Lemma two_lists {X Y} (l : list (X * Y)) a b : map fst l = a -> map snd l = b -> l = combine a b.
Proof. intros <- <-. induction l as [|[x y] l IH]; simpl; auto. now rewrite <- IH. Qed.
Lemma same_pairs {X Y} (l m : list (X * Y)) : map fst l = map fst m -> map snd l = map snd m -> l = m.
Proof. intros H1 H2. rewrite (two_lists l _ _ H1 H2). symmetry. now apply two_lists. Qed.

(* C05, reader *)
Lemma reader_cut os bs (s : SD) its n :
  Forall op_ok os -> history OD bstep os (NewSegmenter bs) = Ok s ->
  Forall (fun it => 1 <= snd it) its -> sizes its < MaxInt ->
  obeys (matrix bstep (brks s) (map fst its ++ [0])) -> (length its + 1 < n)%nat ->
  exists s1 s', Init OD (mkrd its EOF) s = Ok s1 /\
    loop OD bstep n s1 = Ok (map (fun x => (firstn (Z.to_nat (init_limit (rbuf s))) (fst x), snd x)) (spec_of (boz s) (brks s) (map fst its)), true, s') /\
    err s' = err s.
Proof.
  intros Ho H Sz Tt Ob Hn. destruct (hist_state os bs s Ho H) as (t & S & Hi).
  destruct (reader_start s t (mkrd its EOF) S Hi) as (s1 & t1 & I & S1 & A & C & Er). cbn [items fin] in A.
  rewrite <- (irunes_EOF its) in Ob. fold (mat bstep (brks s) its EOF) in Ob.
  pose proof (obeys_strict (ins its EOF) _ Ob) as St.
  destruct (loop_cut bstep (brks s) its EOF (boz s) Sz Tt (strict_conf _ _ _ St) (Some (init_limit (rbuf s))) n 0 0 t1 A C)
    as (outs & t2 & E & O1 & O2 & _ & _ & Er2).
  { rewrite N_len. lia. }
  { intros j p Hj. lia. }
  { discriminate. }
  destruct (loop_transfer n s1 t1 _ S1 E) as (s' & E' & S'). exists s1, s'. split; auto. cbn [fst snd] in *.
  destruct (ssim_fields _ _ S') as (_ & _ & _ & X & _). split.
  - rewrite E'. do 3 f_equal. apply same_pairs.
    + rewrite O1, map_map. cbn [fst view]. rewrite spec_impl. rewrite <- (irunes_EOF its). reflexivity.
    + rewrite (O2 St), map_map. cbn [snd]. rewrite spec_impl. rewrite <- (irunes_EOF its). reflexivity.
  - rewrite X. destruct Er2 as [->|[_ ?]]; congruence.
Qed.

(* C05, slice *)
Lemma slice_cut os bs (s : SD) b n :
  Forall op_ok os -> history OD bstep os (NewSegmenter bs) = Ok s -> zlen b < MaxInt ->
  obeys (matrix bstep (brks s) (b ++ [0])) -> eot_safe (matrix bstep (brks s) (b ++ [0])) -> (length b + 1 < n)%nat ->
  exists s1 s', InitFromSlice OD b s = Ok s1 /\ loop OD bstep n s1 = Ok (spec_of (boz s) (brks s) b, true, s') /\ err s' = err s.
Proof.
  intros Ho H Tt Ob Es Hn. destruct (hist_state os bs s Ho H) as (t & S & Hi).
  destruct (slice_start s t b S Hi) as (s1 & t1 & I & S1 & A & C & Er). destruct (ones_sizes b) as [Sz Tt'].
  rewrite <- (ones_fst b) in Ob, Es. rewrite <- (irunes_EOF (ones b)) in Ob, Es. fold (mat bstep (brks s) (ones b) EOF) in Ob, Es.
  pose proof (obeys_strict (ins (ones b) EOF) _ Ob) as St.
  destruct (loop_cut bstep (brks s) (ones b) EOF (boz s) Sz ltac:(rewrite Tt'; auto) (strict_conf _ _ _ St) None n 0 0 t1 A)
    as (outs & t2 & E & O1 & O2 & _ & _ & Er2).
  { unfold rs. rewrite ones_fst. exact C. }
  { rewrite N_len. unfold ones. rewrite map_length. lia. }
  { intros j p Hj. lia. }
  { intros _. split; auto. intros p Hp Tp. pose proof (reach_le (mat bstep (brks s) (ones b) EOF)) as L.
    rewrite mat_len, N_len in L. destruct (Nat.eq_dec p (length (ones b))) as [->|]; [|lia].
    rewrite (eot_not_break bstep (brks s) (ones b) EOF (boz s) eq_refl Es) in Tp. discriminate. }
  destruct (loop_transfer n s1 t1 _ S1 E) as (s' & E' & S'). exists s1, s'. split; auto. cbn [fst snd] in *.
  destruct (ssim_fields _ _ S') as (_ & _ & _ & X & _). split.
  - rewrite E'. do 3 f_equal. rewrite spec_impl. cbv zeta. rewrite <- (ones_fst b) at 1 2 3. rewrite <- (irunes_EOF (ones b)). apply same_pairs; auto.
  - rewrite X. destruct Er2 as [->|[_ ?]]; congruence.
Qed.

(* C02/C04: any breakers *)
Lemma reader_tiles os bs (s : SD) its n :
  Forall op_ok os -> history OD bstep os (NewSegmenter bs) = Ok s ->
  Forall (fun it => 1 <= snd it) its -> sizes its < MaxInt -> eot_safe (matrix bstep (brks s) (map fst its ++ [0])) ->
  exists s1 segs fl s' c, Init OD (mkrd its EOF) s = Ok s1 /\
    loop OD bstep n s1 = Ok (map (fun x => (firstn (Z.to_nat (init_limit (rbuf s))) (fst x), snd x)) segs, fl, s') /\
    concat (map fst segs) = firstn c (map fst its) /\ Forall (fun x => fst x <> []) segs.
Proof.
  intros Ho H Sz Tt Es. destruct (hist_state os bs s Ho H) as (t & S & Hi).
  destruct (reader_start s t (mkrd its EOF) S Hi) as (s1 & t1 & I & S1 & A & C & Er). cbn [items fin] in A.
  rewrite <- (irunes_EOF its) in Es.
  destruct (loop_tiles bstep (brks s) its EOF (boz s) Sz Tt (Some (init_limit (rbuf s))) Es eq_refl n 0 0 t1 A C) as (segs & fl & t2 & c & E & L & Tx & Ne & _); [lia|].
  destruct (loop_transfer n s1 t1 _ S1 E) as (s' & E' & S'). exists s1, segs, fl, s', c. cbn [fst snd view] in *.
  split; [auto|]. split; [auto|]. split; [|auto]. simpl in Tx. symmetry. exact Tx.
Qed.
Lemma slice_tiles os bs (s : SD) b n :
  Forall op_ok os -> history OD bstep os (NewSegmenter bs) = Ok s -> zlen b < MaxInt ->
  eot_safe (matrix bstep (brks s) (b ++ [0])) ->
  exists s1 segs fl s' c, InitFromSlice OD b s = Ok s1 /\ loop OD bstep n s1 = Ok (segs, fl, s') /\
    concat (map fst segs) = firstn c b /\ Forall (fun x => fst x <> []) segs.
Proof.
  intros Ho H Tt Es. destruct (hist_state os bs s Ho H) as (t & S & Hi).
  destruct (slice_start s t b S Hi) as (s1 & t1 & I & S1 & A & C & Er). destruct (ones_sizes b) as [Sz Tt'].
  rewrite <- (ones_fst b) in Es. rewrite <- (irunes_EOF (ones b)) in Es.
  destruct (loop_tiles bstep (brks s) (ones b) EOF (boz s) Sz ltac:(rewrite Tt'; auto) None Es eq_refl n 0 0 t1 A) as (segs & fl & t2 & c & E & L & Tx & Ne & _); [|lia|].
  { unfold rs. rewrite ones_fst. exact C. }
  destruct (loop_transfer n s1 t1 _ S1 E) as (s' & E' & S'). exists s1, segs, fl, s', c. cbn [fst snd view] in *.
  split; auto. split; [rewrite E'; do 3 f_equal; rewrite <- (map_id segs) at 2; apply map_ext; now intros []|]. split; [|auto]. simpl in Tx. unfold rs in Tx. rewrite ones_fst in Tx. symmetry. exact Tx.
Qed.

(* any mixture of Next and BoundedNext, any reader, any breakers *)
Lemma calls_tile os bs (s : SD) rd cs :
  Forall op_ok os -> history OD bstep os (NewSegmenter bs) = Ok s ->
  exists s1 segs s' c, Init OD rd s = Ok s1 /\
    run OD bstep cs s1 = Ok (map (fun o => match o with
                                           | Some (seg, p) => Some (firstn (Z.to_nat (init_limit (rbuf s))) seg, p)
                                           | None => None end) segs, s') /\
    concat (map (fun o => match o with Some (seg, _) => seg | None => [] end) segs) =
    firstn c (map fst (items rd) ++ match fin rd with EOF => [0] | _ => [] end).
Proof.
  intros Ho H. destruct (hist_state os bs s Ho H) as (t & S & Hi).
  destruct (reader_start s t rd S Hi) as (s1 & t1 & I & S1 & A & C & Er).
  destruct (run_tiles bstep (brks s) (items rd) (fin rd) (boz s) (init_limit (rbuf s)) cs 0 0 t1 (proj1 A) C) as (segs & t2 & k' & c' & E & _ & _ & _ & Tx).
  destruct (run_transfer cs s1 t1 _ S1 E) as (s' & E' & S'). exists s1, segs, s', c'. split; auto. split; auto.
  simpl in Tx. rewrite <- Tx. unfold irunes, ins, rs. rewrite map_app, map_map. cbn [ar]. rewrite map_id. destruct (fin rd); reflexivity.
Qed.

(* C10: reader and slice, any breakers *)
Lemma both_same b1 b2 z its1 its2 m1 m2 : 
  Forall (fun it => 1 <= snd it) its1 -> sizes its1 < MaxInt ->
  Forall (fun it => 1 <= snd it) its2 -> sizes its2 < MaxInt ->
  b1 = b2 -> map fst its1 = map fst its2 -> eot_safe (mat bstep b1 its1 EOF) ->
  forall n k c s t, at_ bstep b1 its1 EOF z k c s -> at_ bstep b2 its2 EOF z k c t ->
    holds m1 (rs its1) c (rbuf s) -> holds m2 (rs its2) c (rbuf t) ->
  exists segs fl s' t', loop list_ops bstep n s = Ok (map (fun x => (view m1 (fst x), snd x)) segs, fl, s') /\
     loop list_ops bstep n t = Ok (map (fun x => (view m2 (fst x), snd x)) segs, fl, t').
Proof.
  intros Z1 T1 Z2 T2 <- Er Es.
  assert (Ei : ins its1 EOF = ins its2 EOF) by (rewrite !ins_EOF, Er; auto).
  assert (Er' : irunes its1 EOF = irunes its2 EOF) by (unfold irunes; now rewrite Ei).
  assert (Em : mat bstep b1 its1 EOF = mat bstep b1 its2 EOF) by (unfold mat; now rewrite Er').
  assert (Ef : forall k c, SegNext.F bstep b1 its1 EOF z k c = SegNext.F bstep b1 its2 EOF z k c).
  { intros. unfold SegNext.F, lam_at, queue. now rewrite Ei, Em. }
  assert (Es2 : eot_safe (mat bstep b1 its2 EOF)) by (rewrite <- Em; auto).
  induction n as [|n IH]; intros k c s t A1 A2 W1 W2.
  - exists [], false, s, t. auto.
  - destruct (GS_bounds _ _ _ _ _ _ _ _ (proj1 A1)) as [C1 C2]. destruct (GS_bounds _ _ _ _ _ _ _ _ (proj1 A2)) as [C3 C4].
    destruct (exec_step bstep b1 its1 EOF z Z1 T1 m1 k c s A1 W1) as (k1 & K1 & J1 & X1); auto.
    { intros _ j i Hj. apply F_real; auto; lia. }
    destruct (exec_step bstep b1 its2 EOF z Z2 T2 m2 k c t A2 W2) as (k2 & K2 & J2 & X2); auto.
    { intros _ j i Hj. apply F_real; auto; lia. }
    assert (NN : N its1 EOF = N its2 EOF) by (unfold N; now rewrite Ei).
    destruct X1 as [(i & s1 & F1 & E1 & H1 & V1 & _)|(s1 & F1 & N1 & E1 & _)];
    destruct X2 as [(i2 & t1 & F2 & E2 & H2 & V2 & _)|(t1 & F2 & N2 & E2 & _)].
    + assert (k1 = k2).
      { destruct (lt_eq_lt_dec k1 k2) as [[L|L]|L]; auto; [specialize (J2 k1 ltac:(lia)); rewrite <- Ef in J2; congruence|specialize (J1 k2 ltac:(lia)); rewrite Ef in J1; congruence]. }
      subst k2. rewrite Ef in F1. assert (i = i2) by congruence. subst i2.
      destruct (IH k1 (c + S i)%nat s1 t1 H1 H2 V1 V2) as (segs & fl & s2 & t2 & L1 & L2).
      exists ((firstn (S i) (skipn c (irunes its1 EOF)), seg_pens bstep b1 its1 EOF k1 (c + i)) :: segs), fl, s2, t2.
      cbn [loop]. rewrite E1, E2. cbn [rbind]. rewrite L1, L2. cbn [rbind map fst snd]. split; auto.
      rewrite Er'. unfold seg_pens. rewrite Ei, Em. reflexivity.
    + exfalso. subst k2. rewrite <- Ef in F2. destruct (Nat.eq_dec k1 (N its2 EOF)) as [->|]; [congruence|].
      specialize (J2 k1 ltac:(lia)). rewrite <- Ef in J2. congruence.
    + exfalso. subst k1. rewrite Ef in F1. destruct (Nat.eq_dec k2 (N its1 EOF)) as [->|]; [congruence|].
      specialize (J1 k2 ltac:(lia)). rewrite Ef in J1. congruence.
    + exists [], true, s1, t1. cbn [loop]. rewrite E1, E2. auto.
Qed.

Lemma reader_slice_same os bs (s : SD) its b n :
  Forall op_ok os -> history OD bstep os (NewSegmenter bs) = Ok s ->
  Forall (fun it => 1 <= snd it) its -> sizes its < MaxInt -> map fst its = b ->
  eot_safe (matrix bstep (brks s) (b ++ [0])) ->
  exists s1 s2 segs fl s' s'', Init OD (mkrd its EOF) s = Ok s1 /\ InitFromSlice OD b s = Ok s2 /\
    loop OD bstep n s1 = Ok (map (fun x => (firstn (Z.to_nat (init_limit (rbuf s))) (fst x), snd x)) segs, fl, s') /\
    loop OD bstep n s2 = Ok (segs, fl, s'').
Proof.
  intros Ho H Sz Tt Eb Es. destruct (hist_state os bs s Ho H) as (t & S & Hi).
  destruct (reader_start s t (mkrd its EOF) S Hi) as (s1 & t1 & I & S1 & A & C & Er). cbn [items fin] in A.
  destruct (slice_start s t b S Hi) as (s2 & t2 & I2 & S2 & A2 & C2 & _). destruct (ones_sizes b) as [Sz2 Tt2].
  assert (Tt3 : sizes (ones b) < MaxInt).
  { rewrite Tt2. pose proof (sizes_len its Sz). unfold zlen in *. rewrite <- Eb, map_length. lia. }
  destruct (both_same (brks s) (brks s) (boz s) its (ones b) (Some (init_limit (rbuf s))) None Sz Tt Sz2 Tt3 eq_refl
     ltac:(rewrite ones_fst; auto) ltac:(unfold mat; rewrite irunes_EOF, Eb; auto) n 0 0 t1 t2 A A2 C) as (segs & fl & u1 & u2 & L1 & L2).
  { unfold rs. now rewrite ones_fst. }
  destruct (loop_transfer n s1 t1 _ S1 L1) as (s' & E' & _). destruct (loop_transfer n s2 t2 _ S2 L2) as (s'' & E'' & _).
  exists s1, s2, segs, fl, s', s''. split; auto. split; auto. split; auto.
  rewrite E''. cbn [fst view]. do 3 f_equal. rewrite <- (map_id segs) at 2. apply map_ext. now intros [].
Qed.

(* C03 *)
Lemma spec_complete z bs rs : rs <> [] -> let m := matrix bstep bs (rs ++ [0]) in
  eot_safe m -> longest (last m []) <= 1 -> test_of z bs (eff (inputs rs) m (length rs - 1)) = true ->
  concat (map fst (spec_of z bs rs)) = rs.
Proof.
  intros Hr m Es Ll Tl. rewrite spec_impl. cbv zeta. fold m.
  assert (Lm : length m = S (length rs)) by (unfold m; rewrite matrix_len, app_length; simpl; lia).
  assert (Ne : m <> []) by (intros X; rewrite X in Lm; discriminate).
  assert (Lr : (1 <= length rs)%nat) by (destruct rs; [congruence|simpl; lia]).
  assert (EL : length (effs (inputs rs) m) = S (length rs)) by (rewrite effs_len; auto).
  assert (Eot : test_of z bs (eff (inputs rs) m (length rs)) = false).
  { pose proof (eot_not_break bstep bs (ones rs) EOF z eq_refl) as X. unfold mat in X. rewrite irunes_EOF, ones_fst in X.
    specialize (X Es). unfold Tf in X. unfold mat in X. rewrite irunes_EOF, ins_EOF, ones_fst in X.
    unfold ones in X at 1. unfold ones in X. rewrite map_length in X. exact X. }
  assert (Rn : map ar (firstn (length rs) (effs (inputs rs) m)) = rs).
  { pose proof (effs_irunes bstep bs (ones rs) EOF (S (length rs))) as X. unfold mat in X. rewrite irunes_EOF, ins_EOF, ones_fst in X. fold m in X.
    rewrite <- Lm, firstn_all in X. rewrite Lm in X. rewrite N_len in X. unfold ones in X. rewrite map_length in X. specialize (X ltac:(lia)).
    rewrite <- firstn_map, X. rewrite firstn_firstn. replace (Nat.min (length rs) (S (length rs))) with (length rs) by lia.
    rewrite firstn_app, firstn_all, Nat.sub_diag. simpl. now rewrite app_nil_r. }
  assert (Sp : firstn (length rs) (effs (inputs rs) m) = firstn (length rs - 1) (effs (inputs rs) m) ++ [eff (inputs rs) m (length rs - 1)]).
  { replace (length rs) with (S (length rs - 1)) at 1 by lia. rewrite (firstn_snoc _ _ zeroAtom) by lia. rewrite effs_nth by lia. reflexivity. }
  assert (K : concat (map fst (cut (test_of z bs) (firstn (length rs) (effs (inputs rs) m)) [])) = rs).
  { rewrite Sp. rewrite cut_concat by auto. rewrite <- Sp. simpl. exact Rn. }
  pose proof (reach_le m) as R1.
  assert (R2 : (length m - 1 <= reach m)%nat).
  { pose proof (reach_ge m (length m) ltac:(lia)) as R. unfold settled in R. rewrite last_nth in Ll. lia. }
  destruct (Nat.eq_dec (reach m) (length rs)) as [->|]; auto.
  replace (reach m) with (S (length rs)) by lia. rewrite (firstn_snoc _ _ zeroAtom) by lia.
  rewrite effs_nth by lia. rewrite cut_app_last by auto. exact K.
Qed.

(* C06 *)
Lemma reach_mono m m' : length m = length m' -> (forall j, (j < length m)%nat -> longest (nth j m []) <= longest (nth j m' [])) -> (reach m' <= reach m)%nat.
Proof.
  intros L H. destruct (le_lt_dec (reach m') (reach m)); auto. exfalso.
  destruct (reach_in m' (reach m) l) as (k & K1 & K2). pose proof (reach_ge m k ltac:(lia)) as R.
  unfold settled in *. specialize (H (k - 1)%nat ltac:(lia)). lia.
Qed.
Lemma matrix_prim bs1 b rs j i : (j < length rs)%nat -> prim (nth j (matrix bstep (b :: bs1) rs) []) i = prim (nth j (matrix bstep [b] rs) []) i.
Proof. intros. rewrite !matrix_answers by auto. reflexivity. Qed.
Lemma nth_error_effs ins m i a R : nth_error (firstn R (effs ins m)) i = Some a <-> (i < R)%nat /\ (i < length m)%nat /\ a = eff ins m i.
Proof.
  split.
  - intros H. assert (L : (i < length (firstn R (effs ins m)))%nat) by (apply nth_error_Some; congruence).
    rewrite firstn_length, effs_len in L. rewrite (nth_error_nth' _ zeroAtom) in H by (rewrite firstn_length, effs_len; lia).
    rewrite nth_firstn in H by lia. rewrite effs_nth in H by lia. inversion H. split; [lia|]. split; [lia|auto].
  - intros (H1 & H2 & ->). rewrite (nth_error_nth' _ zeroAtom) by (rewrite firstn_length, effs_len; lia).
    rewrite nth_firstn by lia. rewrite effs_nth by lia. reflexivity.
Qed.
Lemma column_ext g m m' i : length m = length m' -> (forall j k, (j < length m)%nat -> g (nth j m []) k = g (nth j m' []) k) -> column g m i = column g m' i.
Proof. intros L H. unfold column. rewrite <- L. f_equal. apply map_ext_in. intros k Hk. apply in_seq in Hk. apply H. lia. Qed.

Lemma primary_kept z p ss rs : ss <> [] ->
  let R := reach (matrix bstep (p :: ss) (rs ++ [0])) in
  (forall e p0 p1, In (e, (p0, p1)) (ends 0 (spec_of z [p] rs)) -> (e <= R)%nat ->
     exists p1', In (e, (p0, p1')) (ends 0 (spec_of z (p :: ss) rs))) /\
  (forall e p0 p1, In (e, (p0, p1)) (ends 0 (spec_of z (p :: ss) rs)) ->
     (e <= R)%nat /\ ((exists p1', In (e, (p0, p1')) (ends 0 (spec_of z [p] rs))) \/ permits (snd z) p1 = true)).
Proof.
  intros Hs R. set (m1 := matrix bstep [p] (rs ++ [0])). set (m2 := matrix bstep (p :: ss) (rs ++ [0])) in *.
  assert (Ln : length m1 = length m2) by (unfold m1, m2; now rewrite !matrix_len).
  assert (L2 : length m2 = length (rs ++ [0])) by apply matrix_len.
  assert (RR : (R <= reach m1)%nat).
  { apply reach_mono; auto. intros j Hj. unfold m1, m2. rewrite !matrix_answers by lia. unfold longest. cbn [map fold_right]. 
    assert (0 <= fold_right Z.max 0 (map fst (map (fun b => nth j (answers bstep b (rs ++ [0])) (0, [])) ss))) by (induction (map fst _); simpl; lia). lia. }
  assert (E0 : forall i, ap0 (eff (inputs rs) m1 i) = ap0 (eff (inputs rs) m2 i)).
  { intros i. unfold eff. cbn [ap0]. f_equal. apply column_ext; auto. intros j k Hj. symmetry. apply matrix_prim. lia. }
  assert (T1 : forall a, test_of z [p] a = isPossibleBreak (ap0 a) (fst z)) by (intros a; unfold test_of, breakable; cbn; now rewrite orb_false_r).
  assert (T2 : forall a, test_of z (p :: ss) a = isPossibleBreak (ap0 a) (fst z) || isPossibleBreak (ap1 a) (snd z)).
  { intros a. unfold test_of, breakable. replace (zlen (p :: ss) >? 1) with true; auto.
    unfold zlen. destruct ss; [congruence|]. cbn [length]. symmetry. apply Z.gtb_lt. lia. }
  rewrite !spec_impl. cbv zeta. fold m1 m2. split.
  - intros e p0 p1 H Le. apply ends_cut in H. destruct H as (i & a & H1 & H2 & H3 & H4). simpl in H3.
    apply nth_error_effs in H1. destruct H1 as (I1 & I2 & ->). rewrite T1, E0 in H2. rewrite E0 in H4. inversion H4; subst.
    eexists. apply ends_cut. exists i, (eff (inputs rs) m2 i). split; [apply nth_error_effs; repeat split; fold R; lia|].
    rewrite T2, H2. simpl. repeat split; auto.
  - intros e p0 p1 H. apply ends_cut in H. destruct H as (i & a & H1 & H2 & H3 & H4). simpl in H3.
    apply nth_error_effs in H1. destruct H1 as (I1 & I2 & ->). fold R in I1. split; [lia|]. rewrite T2 in H2. inversion H4; subst.
    apply orb_prop in H2. destruct H2 as [H2|H2]; [left|right; now rewrite <- permits_ok].
    eexists. apply ends_cut. exists i, (eff (inputs rs) m1 i). split; [apply nth_error_effs; repeat split; lia|].
    rewrite T1, E0. repeat split; auto.
Qed.

(* C07 *)
Lemma sizes_gap its : Forall (fun it : Z * Z => 1 <= snd it) its -> forall a b, (a <= b)%nat -> (b <= length its)%nat ->
  Z.of_nat (b - a) <= pos_at its b - pos_at its a.
Proof.
  intros H a b L1 L2. unfold pos_at.
  assert (E : firstn b its = firstn a its ++ firstn (b - a) (skipn a its)).
  { rewrite <- (firstn_skipn a its) at 1. rewrite firstn_app, firstn_firstn, firstn_length.
    replace (Nat.min b a) with a by lia. do 2 f_equal. lia. }
  rewrite E, sizes_app.
  assert (F1 : Forall (fun it : Z * Z => 1 <= snd it) (firstn (b - a) (skipn a its))).
  { rewrite Forall_forall in *. intros x Hx. apply H.
    rewrite <- (firstn_skipn a its). apply in_or_app. right.
    rewrite <- (firstn_skipn (b - a) (skipn a its)). apply in_or_app. auto. }
  apply sizes_len in F1. unfold zlen in F1. rewrite firstn_length, skipn_length in F1. lia.
Qed.
Lemma pos_at_all its k : (length its <= k)%nat -> pos_at its k = pos_at its (length its).
Proof. intros. unfold pos_at. rewrite !firstn_all2 by lia. reflexivity. Qed.

Lemma exec_transfer cl (s : SD) t o t' : ssim s t -> exec list_ops bstep cl t = Ok (o, t') ->
  exists s', exec OD bstep cl s = Ok (o, s') /\ ssim s' t'.
Proof.
  intros S E. pose proof (sim_exec bstep cl s t S) as R. rewrite E in R.
  destruct (exec OD bstep cl s) as [[y s']| |]; simpl in R; try contradiction. destruct R as [R1 R]. simpl in R1, R. subst y. eauto.
Qed.

Lemma bounded_within os bs (s : SD) rd cs b :
  Forall op_ok os -> history OD bstep os (NewSegmenter bs) = Ok s -> Forall (fun it => 1 <= snd it) (items rd) ->
  exists s1 segs s2 c o s3, Init OD rd s = Ok s1 /\
    run OD bstep cs s1 = Ok (map (fun o => match o with
                                           | Some (seg, p) => Some (firstn (Z.to_nat (init_limit (rbuf s))) seg, p)
                                           | None => None end) segs, s2) /\
    concat (map (fun o => match o with Some (seg, _) => seg | None => [] end) segs) =
    firstn c (map fst (items rd) ++ match fin rd with EOF => [0] | _ => [] end) /\
    exec OD bstep (CBounded b) s2 = Ok (o, s3) /\
    match o with
    | Some (txt, _) =>
        exists n, txt = firstn (Z.to_nat (init_limit (rbuf s))) (firstn n (skipn c (map fst (items rd) ++ match fin rd with EOF => [0] | _ => [] end))) /\
          (atEOF s3 = false -> n <> 0%nat /\ sizes (firstn (c + n) (items rd)) <= b) /\
          (n <> 0%nat -> sizes (firstn (c + n) (items rd)) <= b + 1)
    | None => atEOF s3 = false -> Err s3 <> None \/
              (exists k, (c <= k)%nat /\ b <= sizes (firstn k (items rd)) - Z.of_nat (k - c))
    end.
Proof.
  intros Ho H Sz. destruct (hist_state os bs s Ho H) as (t & S & Hi).
  destruct (reader_start s t rd S Hi) as (s1 & t1 & I & S1 & A & C & Er).
  destruct (run_tiles bstep (brks s) (items rd) (fin rd) (boz s) (init_limit (rbuf s)) cs 0 0 t1 (proj1 A) C) as (segs & t2 & k & c & E & G2 & C2 & _ & Tx).
  destruct (run_transfer cs s1 t1 _ S1 E) as (s2 & E' & S2). cbn [fst snd] in E', S2.
  assert (IR : irunes (items rd) (fin rd) = map fst (items rd) ++ match fin rd with EOF => [0] | _ => [] end).
  { unfold irunes, ins, rs. rewrite map_app, map_map. cbn [ar]. rewrite map_id. destruct (fin rd); reflexivity. }
  destruct (next_ok bstep (brks s) (items rd) (fin rd) (boz s) (b - 1) k c t2 G2) as (r & k' & t3 & N1 & K & _ & _ & R).
  assert (X : exists o, exec list_ops bstep (CBounded b) t2 = Ok (o, t3) /\ 
     match o with
     | Some (txt, _) =>
        exists n, txt = firstn (Z.to_nat (init_limit (rbuf s))) (firstn n (skipn c (irunes (items rd) (fin rd)))) /\
          (atEOF t3 = false -> n <> 0%nat /\ sizes (firstn (c + n) (items rd)) <= b) /\
          (n <> 0%nat -> sizes (firstn (c + n) (items rd)) <= b + 1)
     | None => atEOF t3 = false -> Err t3 <> None \/
              (exists k, (c <= k)%nat /\ b <= sizes (firstn k (items rd)) - Z.of_nat (k - c))
     end).
  { unfold exec. cbn [bound_of]. rewrite N1. cbn [rbind]. destruct r.
    - cbn zeta in R. destruct R as (Hb & G3 & Rb & Lp & _ & _ & At).
      set (bp := brk bstep (brks s) (items rd) (fin rd) (boz s) k k' c (b - 1) t2) in *.
      set (n := Z.to_nat (front (items rd) k' c bp (b - 1) + 1)) in *.
      destruct (GS_bounds _ _ _ _ _ _ _ _ G3) as [L1 L2]. destruct (GS_bounds _ _ _ _ _ _ _ _ G2) as [L3 L4].
      destruct (deliver_view (Some (init_limit (rbuf s))) (rs (items rd)) c (rbuf t2) (map ar (firstn n (queue bstep (brks s) (items rd) (fin rd) k' c))) C2) as [D1 D2]; [discriminate|].
      rewrite <- Rb in D2. unfold Text. rewrite D2. cbn [lift rbind]. eexists. split; [reflexivity|]. cbn iota beta.
      exists n. rewrite seg_runes by lia. split; [reflexivity|]. fold (pos_at (items rd) (c + n)).
      assert (Fr : front (items rd) k' c bp (b - 1) <= b - 1 - (pos_at (items rd) k' - Z.of_nat (k' - c))).
      { unfold front. destruct (Z.geb_spec (pos_at (items rd) k' - Z.of_nat (k' - c) + bp) (b - 1)); lia. }
      assert (Fr2 : front (items rd) k' c bp (b - 1) <= bp) by apply front_le.
      assert (NL := N_len (items rd) (fin rd)).
      split.
      + intros Ae. specialize (At Ae). destruct G3 as (d3 & Hd3 & G3). pose proof (G_neof _ _ _ _ _ _ _ _ _ G3 Ae) as K2.
        assert (0 <= front (items rd) k' c bp (b - 1)).
        { unfold front. destruct (Z.geb_spec (pos_at (items rd) k' - Z.of_nat (k' - c) + bp) (b - 1)); lia. }
        split; [unfold n; lia|]. pose proof (sizes_gap (items rd) Sz (c + n) k' L1 K2). unfold n in *. lia.
      + intros Nz. destruct (le_lt_dec k' (length (items rd))) as [K2|K2].
        * pose proof (sizes_gap (items rd) Sz (c + n) k' L1 K2). unfold n in *. lia.
        * assert (k' = (length (items rd) + 1)%nat) by (destruct (fin rd); lia).
          assert (P : pos_at (items rd) k' = pos_at (items rd) (length (items rd))) by (apply pos_at_all; lia).
          destruct (le_lt_dec (c + n) (length (items rd))) as [K3|K3].
          { pose proof (sizes_gap (items rd) Sz (c + n) (length (items rd)) K3 ltac:(lia)). unfold n in *. lia. }
          { rewrite (pos_at_all _ (c + n)) by lia. unfold n in *. lia. }
    - exists None. split; [reflexivity|]. intros Ae. destruct R as (G3 & _ & _ & R).
      destruct R as [(_ & _ & R & _)|[(_ & _ & _ & _ & R)|[(_ & _ & R & _)|(_ & _ & R & R2 & _)]]].
      + right. exists k'. destruct (GS_bounds _ _ _ _ _ _ _ _ G3). unfold pos_at in R. split; [auto|lia].
      + congruence.
      + left. unfold Err. rewrite R. destruct (err t2) as [[]|]; discriminate.
      + left. unfold Err. rewrite R. destruct (err t2) as [[]|]; cbn; try discriminate; destruct (fin rd); congruence. }
  destruct X as (o & X1 & X2). destruct (exec_transfer (CBounded b) s2 t2 o t3 S2 X1) as (s3 & E3 & S3).
  exists s1, segs, s2, c, o, s3. split; [auto|]. split; [auto|]. rewrite <- IR. split; [symmetry; exact Tx|]. split; [auto|].
  destruct (ssim_fields _ _ S3) as (_ & _ & _ & Q1 & Q2 & _). unfold Err. rewrite Q1, Q2. exact X2.
Qed.
End Sessions.
