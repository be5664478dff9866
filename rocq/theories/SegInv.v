(* SegInv.v -- what one call of Next/BoundedNext does, for arbitrary breakers, readers and bounds. *)
From Coq Require Import List ZArith Lia Bool.
From Verif Require Import Base RuneWrite Segmenter SegSpec PrioQProofs SegProofs.
Import ListNotations.
Open Scope Z_scope.

(* ---- the search for a break, as a function ---- *)
(* index of the first element passing the test among the first n *)
Fixpoint ffind {A} (test : A -> bool) (n : nat) (l : list A) : option nat :=
  match n, l with
  | S n', a :: t => if test a then Some 0%nat else match ffind test n' t with Some i => Some (S i) | None => None end
  | _, _ => None
  end.

Definition fbo (test : atom -> bool) (d : list atom) (to_ bd : Z) : Z :=
  if (to_ - 1 <? 0) || (bd <? 0) then -1
  else match ffind test (Z.to_nat (Z.min to_ (bd + 1))) d with
       | Some i => Z.of_nat i
       | None => if bd + 1 <=? to_ then bd else -1
       end.

Lemma ffind_Some {A} (test : A -> bool) : forall n l i, ffind test n l = Some i ->
  (i < n)%nat /\ (i < length l)%nat /\ (exists a, nth_error l i = Some a /\ test a = true) /\
  (forall j a, (j < i)%nat -> nth_error l j = Some a -> test a = false).
Proof.
  induction n as [|n IH]; intros [|a l] i H; simpl in H; try discriminate.
  destruct (test a) eqn:T.
  - inversion H; subst. simpl. split; [lia|]. split; [lia|]. split; [eauto|]. intros; lia.
  - destruct (ffind test n l) as [j|] eqn:F; inversion H; subst. destruct (IH _ _ F) as (L1 & L2 & E & A1).
    simpl. split; [lia|]. split; [lia|]. split; [auto|]. intros [|j'] b Hj Hb; simpl in Hb; [congruence|]. apply (A1 j'); auto; lia.
Qed.
Lemma ffind_None {A} (test : A -> bool) : forall n l, ffind test n l = None ->
  forall j a, (j < n)%nat -> nth_error l j = Some a -> test a = false.
Proof.
  induction n as [|n IH]; intros [|a l] H j b Hj Hb; simpl in *; try lia; try (destruct j; discriminate).
  destruct (test a) eqn:T; [discriminate|]. destruct (ffind test n l) eqn:F; [discriminate|].
  destruct j; simpl in Hb; [congruence|]. apply (IH l F j); auto; lia.
Qed.

Lemma find_loop_ffind test d to_ bd : to_ <= zlen d -> forall n i, 0 <= i -> to_ - i <= Z.of_nat n ->
  find_loop list_ops n test d i to_ bd =
  Ok (match ffind test (Z.to_nat (Z.min to_ (bd + 1) - i)) (skipn (Z.to_nat i) d) with
      | Some j => (Some (i + Z.of_nat j), i + Z.of_nat j)
      | None => (None, Z.max i (Z.min to_ (bd + 1)))
      end).
Proof.
  intros L. induction n as [|n IH]; intros i Hi Hn.
  - cbn [find_loop]. destruct (Z.ltb_spec i to_); try lia. cbn [andb].
    replace (Z.to_nat (Z.min to_ (bd + 1) - i)) with 0%nat by lia. cbn. do 2 f_equal. lia.
  - cbn [find_loop]. destruct (Z.ltb_spec i to_), (Z.leb_spec i bd); cbn [andb].
    + cbn [q_at list_ops]. destruct (zget d i) as [a|] eqn:Ga.
      2:{ exfalso. assert (exists a, zget d i = Some a) as [a X] by (apply zget_Some_iff; lia). congruence. }
      cbn [lift rbind].
      assert (Sk : skipn (Z.to_nat i) d = a :: skipn (Z.to_nat (i + 1)) d).
      { unfold zget in Ga. destruct ((0 <=? i) && (i <? zlen d)); [|discriminate].
        replace (Z.to_nat (i + 1)) with (S (Z.to_nat i)) by lia. clear -Ga.
        revert d Ga. generalize (Z.to_nat i) as k. induction k; intros [|x d] E; simpl in *; try discriminate; try congruence. apply IHk; auto. }
      rewrite Sk. destruct (Z.to_nat (Z.min to_ (bd + 1) - i)) as [|m] eqn:Em; [lia|].
      cbn [ffind]. destruct (test a).
      { replace (i + Z.of_nat 0) with i by lia. reflexivity. }
      rewrite IH by lia. replace (Z.to_nat (Z.min to_ (bd + 1) - (i + 1))) with m by lia.
      destruct (ffind test m _) as [j|].
      * replace (i + Z.of_nat (S j)) with (i + 1 + Z.of_nat j) by lia. reflexivity.
      * replace (Z.max i (Z.min to_ (bd + 1))) with (Z.max (i + 1) (Z.min to_ (bd + 1))) by lia. reflexivity.
    + replace (Z.to_nat (Z.min to_ (bd + 1) - i)) with 0%nat by lia. cbn. do 2 f_equal. lia.
    + replace (Z.to_nat (Z.min to_ (bd + 1) - i)) with 0%nat by lia. cbn. do 2 f_equal. lia.
    + replace (Z.to_nat (Z.min to_ (bd + 1) - i)) with 0%nat by lia. cbn. do 2 f_equal. lia.
Qed.

Lemma skipn_tail {A} : forall k (l : list A) x t, skipn k l = x :: t -> skipn (S k) l = t.
Proof. induction k; intros [|y l] x t H; simpl in *; try discriminate; try congruence. apply IHk in H. auto. Qed.
Lemma skipn_nth {A} : forall k (l : list A) d, (k < length l)%nat -> skipn k l = nth k l d :: skipn (S k) l.
Proof. induction k; intros [|y l] d H; simpl in *; try lia; auto. apply IHk. lia. Qed.

Section Inv.
Context {B : Type} (bstep : B -> Z -> B * Z * list Z).
Notation SL := (state (list atom) B).
Notation OL := list_ops.

Definition stest (s : SL) : atom -> bool := breakable (boz s) (zlen (brks s) >? 1).

Lemma find_fbo s d to_ bd : to_ <= zlen d -> findBreakOpportunity OL s d to_ bd = Ok (fbo (stest s) d to_ bd).
Proof.
  intros L. unfold findBreakOpportunity, fbo. fold (stest s).
  destruct (Z.ltb_spec (to_ - 1) 0), (Z.ltb_spec bd 0); cbn [orb]; auto.
  rewrite (find_loop_ffind (stest s) d to_ bd L) by lia. rewrite Z.sub_0_r.
  change (skipn (Z.to_nat 0) d) with d.
  destruct (ffind _ _ d) as [j|]; cbn [rbind]; auto.
  destruct (Z.leb_spec (bd + 1) to_), (Z.eqb_spec (Z.max 0 (Z.min to_ (bd + 1))) (bd + 1)); auto; lia.
Qed.

Lemma fbo_range test d to_ bd : to_ <= zlen d -> fbo test d to_ bd = -1 \/ (0 <= fbo test d to_ bd < to_ /\ fbo test d to_ bd <= bd).
Proof.
  intros L. unfold fbo. destruct (Z.ltb_spec (to_ - 1) 0), (Z.ltb_spec bd 0); cbn [orb]; auto.
  destruct (ffind _ _ d) as [j|] eqn:F.
  - apply ffind_Some in F. destruct F as (? & ? & _). right. lia.
  - destruct (Z.leb_spec (bd + 1) to_); [right|left]; lia.
Qed.

(* ---- the situation: a text and the breakers' matrix for it ---- *)
Context (bs0 : list B) (its : list (Z * Z)) (f : error) (z0 : bool * bool).
Definition rs : list Z := map fst its.
Definition ins : list atom := map (fun r => mkatom r 0 0) rs ++ match f with EOF => [eotAtom] | _ => [] end.
Definition irunes : list Z := map ar ins.
Definition mat : list (list answer) := matrix bstep bs0 irunes.
Definition N : nat := length ins.
Definition sizes (l : list (Z * Z)) : Z := fold_right Z.add 0 (map snd l).
Definition lam_at (k : nat) : Z := match k with O => 0 | S j => longest (nth j mat []) end.
Definition pos_at (k : nat) : Z := sizes (firstn k its).
(* queue contents after k reads and c pops *)
Definition queue (k c : nat) : list atom := skipn c (effs ins (firstn k mat)).
Definition test0 : atom -> bool := breakable z0 (zlen bs0 >? 1).

(* The state after k reads and c pops. *)
Record G (k c : nat) (s : SL) (d : list atom) : Prop := mkG {
  G_c : (c <= k)%nat; G_k : (k <= N)%nat;
  G_d : d = queue k c;
  G_rdr : rdr s = Some (mkrd (skipn k its) f);
  G_brks : brks s = bs_run bstep bs0 (firstn k irunes);
  G_pos : pos s = pos_at k;
  G_lam : lam s = lam_at k;
  G_bpos : bpos s = -1 \/ 0 <= bpos s < Z.of_nat (k - c);
  G_eof : atEOF s = true -> k = N;
  G_neof : atEOF s = false -> (k <= length its)%nat;
  G_boz : boz s = z0 }.

Lemma N_len : N = (length its + match f with EOF => 1 | _ => 0 end)%nat.
Proof. unfold N, ins, rs. rewrite app_length, !map_length. destruct f; auto. Qed.
Lemma mat_len : length mat = N.
Proof. unfold mat. rewrite matrix_len. unfold irunes. now rewrite map_length. Qed.
Lemma queue_len k c : (c <= k)%nat -> (k <= N)%nat -> zlen (queue k c) = Z.of_nat (k - c).
Proof. intros. unfold queue, zlen. rewrite skipn_length, effs_len, firstn_length, mat_len. lia. Qed.
Lemma lam_at_nonneg k : 0 <= lam_at k.
Proof. destruct k; simpl; [lia|]. apply longest_nonneg. Qed.

Lemma bs_next_len bs r : length (bs_next bstep bs r) = length bs.
Proof. apply map_length. Qed.
Lemma bs_run_len : forall l bs, length (bs_run bstep bs l) = length bs.
Proof. unfold bs_run. induction l; intros; simpl; auto. rewrite IHl. apply bs_next_len. Qed.
Lemma stest_G k c s d : G k c s d -> stest s = test0.
Proof. intros H. unfold stest, test0. rewrite (G_boz _ _ _ _ H), (G_brks _ _ _ _ H). unfold zlen. now rewrite bs_run_len. Qed.

Lemma firstn_snoc {A} (l : list A) k d : (k < length l)%nat -> firstn (S k) l = firstn k l ++ [nth k l d].
Proof.
  revert l. induction k; intros [|x l] H; simpl in *; try lia; auto. f_equal. apply IHk. lia.
Qed.

Lemma nth_ins_rune k r sz rest : skipn k its = (r, sz) :: rest ->
  (k < length its)%nat /\ nth k ins zeroAtom = mkatom r 0 0 /\ skipn (S k) its = rest /\ pos_at (S k) = pos_at k + sz.
Proof.
  intros H.
  assert (L : (k < length its)%nat).
  { destruct (le_lt_dec (length its) k); auto. rewrite skipn_all2 in H by auto. discriminate. }
  assert (Nt : nth k its (0,0) = (r, sz)).
  { rewrite <- (firstn_skipn k its). rewrite app_nth2; rewrite firstn_length; [|lia].
    rewrite H. replace (k - Nat.min k (length its))%nat with 0%nat by lia. reflexivity. }
  repeat split; auto.
  - unfold ins. rewrite app_nth1 by (unfold rs; rewrite !map_length; auto).
    change zeroAtom with ((fun r => mkatom r 0 0) 0). rewrite map_nth. unfold rs.
    change 0 with (fst (0, 0)) at 1. rewrite map_nth. rewrite Nt. reflexivity.
  - eapply skipn_tail; eauto.
  - unfold pos_at. rewrite (firstn_snoc its k (0,0)) by auto. unfold sizes. rewrite map_app, fold_add_app, Nt. simpl. lia.
Qed.

Lemma queue_snoc k c : (c <= k)%nat -> (k < N)%nat ->
  queue (S k) c = rev (feedr false (nth k mat []) (rev (queue k c ++ [nth k ins zeroAtom]))).
Proof.
  intros Hc Hk. unfold queue at 1. rewrite (firstn_snoc mat k []) by (rewrite mat_len; auto).
  rewrite effs_snoc. rewrite firstn_length, mat_len. replace (Nat.min k N) with k by lia.
  rewrite <- feedr_skip. 2:{ rewrite app_length, effs_len, firstn_length, mat_len. simpl. lia. }
  rewrite skipn_app, effs_len, firstn_length, mat_len. replace (c - Nat.min k N)%nat with 0%nat by lia.
  reflexivity.
Qed.

Lemma mat_row k : (k < N)%nat ->
  nth k mat [] = bs_out bstep (bs_run bstep bs0 (firstn k irunes)) (nth k irunes 0).
Proof.
  intros H. unfold mat. assert (L : (k < length irunes)%nat) by (unfold irunes; rewrite map_length; auto).
  rewrite <- (firstn_skipn k irunes) at 1. rewrite matrix_app.
  rewrite app_nth2; rewrite matrix_len, firstn_length; [|lia].
  replace (k - Nat.min k (length irunes))%nat with 0%nat by lia.
  rewrite (skipn_nth k irunes 0) by auto. reflexivity.
Qed.

Lemma bs_run_snoc k : (k < N)%nat ->
  bs_run bstep bs0 (firstn (S k) irunes) = bs_next bstep (bs_run bstep bs0 (firstn k irunes)) (nth k irunes 0).
Proof.
  intros H. assert (L : (k < length irunes)%nat) by (unfold irunes; rewrite map_length; auto).
  rewrite (firstn_snoc irunes k 0) by auto. unfold bs_run. rewrite fold_left_app. reflexivity.
Qed.

(* ---- reading until a break is found ---- *)
Definition find_at (k c : nat) (bound : Z) : Z :=
  fbo test0 (queue k c) (Z.of_nat (k - c) - lam_at k) (bound_dist bound (pos_at k) (Z.of_nat (k - c))).

Lemma find_at_range k c bound : (c <= k)%nat -> (k <= N)%nat ->
  find_at k c bound = -1 \/ 0 <= find_at k c bound < Z.of_nat (k - c).
Proof.
  intros Hc Hk. unfold find_at. pose proof (lam_at_nonneg k). pose proof (queue_len k c Hc Hk).
  match goal with |- context [fbo ?t ?d ?x ?y] => destruct (fbo_range t d x y) as [X|X]; [lia|auto|right; lia] end.
Qed.

(* one read-and-feed round leads from k to k+1 *)
Lemma round k c s d a d1 s1 :
  G k c s d -> (k < N)%nat -> nth k ins zeroAtom = a -> d1 = d ++ [a] ->
  rdr s1 = Some (mkrd (skipn (S k) its) f) -> brks s1 = brks s -> pos s1 = pos_at (S k) -> boz s1 = boz s ->
  (atEOF s1 = true -> S k = N) -> (atEOF s1 = false -> (S k <= length its)%nat) ->
  exists bs lm d2,
    feed OL bstep false (brks s1) (ar a) 0 d1 = Ok (bs, lm, d2) /\
    forall bound, findBreakOpportunity OL s1 d2 (zlen d1 - lm) (bound_dist bound (pos s1) (zlen d1)) = Ok (find_at (S k) c bound) /\
    forall bp, bp = find_at (S k) c bound ->
      G (S k) c (mkS (dq s1) (rdr s1) bs (rbuf s1) (lastp s1) (pos s1) (boz s1) lm bp (atEOF s1) (inUse s1) (err s1)) d2.
Proof.
  intros H Hk Ha -> Hr Hb Hp Hz He Hne. destruct H as [Hc Hk' Hd Hr0 Hb0 Hp0 Hl0 Hbp He0 Hne0 Hz0].
  assert (Er : nth k irunes 0 = ar a).
  { unfold irunes. change 0 with (ar zeroAtom). rewrite map_nth. now rewrite Ha. }
  rewrite feed_ok. eexists _, _, _. split; [reflexivity|].
  rewrite Hb, Hb0. rewrite <- Er, <- mat_row by auto. rewrite Hd. rewrite <- Ha. rewrite <- queue_snoc by auto.
  rewrite <- bs_run_snoc by auto.
  assert (L1 : zlen (queue k c ++ [nth k ins zeroAtom]) = Z.of_nat (S k - c)).
  { rewrite zlen_app, queue_len by auto. change (zlen [nth k ins zeroAtom]) with 1. lia. }
  rewrite L1. intros bound.
  assert (LQ : zlen (queue (S k) c) = Z.of_nat (S k - c)) by (apply queue_len; lia).
  assert (Ln : 0 <= longest (nth k mat [])) by apply longest_nonneg.
  split.
  - rewrite find_fbo by lia. unfold find_at. rewrite Hp. f_equal. f_equal.
    unfold stest, test0. rewrite Hz, Hz0, Hb, Hb0. unfold zlen. rewrite bs_run_len. reflexivity.
  - intros bp ->. constructor; cbn; auto; try lia; try congruence.
    apply find_at_range; lia.
Qed.

Lemma readEnough_ok bound : forall fuel k c s d, G k c s d -> (length its - k + 3 <= fuel + (if atEOF s then 2 else 0))%nat ->
  exists k' s' d' e, readEnough OL bstep fuel s d bound = Ok (s', d', e) /\ G k' c s' d' /\ (k <= k')%nat /\
    rbuf s' = rbuf s /\ lastp s' = lastp s /\ inUse s' = inUse s /\ err s' = err s /\ dq s' = dq s /\
    (k' = k -> bpos s' = bpos s) /\ ((k < k')%nat -> bpos s' = find_at k' c bound /\ bpos s < 0) /\
    (forall j, (k < j < k')%nat -> find_at j c bound < 0) /\
    (atEOF s' = false -> atEOF s = false) /\
    match e with
    | None => 0 <= bpos s'
    | Some ErrBoundReached => bpos s' < 0 /\ (pos s' - lam s' > bound \/ (k' = N /\ f = ErrBoundReached /\ atEOF s' = true))
    | Some e => bpos s' < 0 /\ k' = N /\ atEOF s' = true /\ (f = e \/ e = EOF)
    end.
Proof.
  induction fuel as [|fu IH]; intros k c s d H Hf.
  - destruct (atEOF s) eqn:Ea; [|lia]. exfalso. pose proof (G_eof _ _ _ _ H Ea). rewrite N_len in H0. destruct f; lia.
  - simpl. destruct (Z.ltb_spec (bpos s) 0) as [Lb|Lb].
    2:{ exists k, s, d, None. split; auto. split; auto. repeat split; auto; try lia. }
    destruct (Z.gtb_spec (pos s - lam s) bound) as [Gb|Gb].
    { exists k, s, d, (Some ErrBoundReached). split; auto. split; auto. repeat split; auto; try lia. }
    unfold readRune. destruct (atEOF s) eqn:Ea.
    { cbn [rbind]. exists k, s, d, (Some EOF). split; auto. split; auto. repeat split; auto; try lia.
      { congruence. } apply (G_eof _ _ _ _ H Ea). }
    rewrite (G_rdr _ _ _ _ H). cbn [items fin].
    destruct (skipn k its) as [|[r sz] rest] eqn:Es.
    + assert (Lk : (length its <= k)%nat).
      { destruct (le_lt_dec (length its) k); auto. exfalso.
        assert (X : length (skipn k its) = 0%nat) by now rewrite Es. rewrite skipn_length in X. lia. }
      pose proof (G_neof _ _ _ _ H Ea) as Lk'. assert (k = length its) by lia.
      destruct f eqn:Ef.
      * (* end of text *)
        cbn [q_push list_ops lift rbind q_last q_len].
        assert (Kn : (k < N)%nat) by (rewrite N_len, Ef; lia).
        assert (Na : nth k ins zeroAtom = eotAtom).
        { unfold ins. rewrite app_nth2; unfold rs; rewrite !map_length; [|lia]. rewrite Ef. replace (k - length its)%nat with 0%nat by lia. reflexivity. }
        pose (s1 := mkS (dq s) (Some (mkrd [] EOF)) (brks s) (rbuf s) (lastp s) (pos s) (boz s) (lam s) (bpos s) true (inUse s) (err s) : SL).
        change (mkS (dq s) (Some (mkrd [] EOF)) (brks s) (rbuf s) (lastp s) (pos s) (boz s) (lam s) (bpos s) true (inUse s) (err s)) with s1.
        destruct (round k c s d eotAtom (d ++ [eotAtom]) s1 H Kn Na eq_refl) as (bs & lm & d2 & F1 & F2); auto.
        { unfold s1; cbn [rdr]. rewrite (skipn_all2 its (n:=S k)) by lia. rewrite Ef. reflexivity. }
        { simpl. rewrite (G_pos _ _ _ _ H). unfold pos_at. rewrite !firstn_all2 by lia. reflexivity. }
        { simpl. intros _. rewrite N_len, Ef. lia. } { simpl. discriminate. }
        replace (zget (d ++ [eotAtom]) (zlen (d ++ [eotAtom]) - 1)) with (Some eotAtom).
        2:{ rewrite zlen_app. change (zlen [eotAtom]) with 1. rewrite zget_app. destruct (Z.ltb_spec (zlen d + 1 - 1) (zlen d)); try lia.
            replace (zlen d + 1 - 1 - zlen d) with 0 by lia. reflexivity. }
        cbn [lift rbind]. rewrite F1. cbn [rbind]. destruct (F2 bound) as [F3 F4]. rewrite F3. cbn [rbind].
        specialize (F4 _ eq_refl).
        destruct (IH (S k) c _ d2 F4) as (k' & s' & d' & e & E & G' & Lk2 & R1 & R2 & R3 & R4 & R5 & R6 & R7 & R8 & R9 & R10).
        { cbn. lia. }
        exists k', s', d', e. split; [exact E|]. split; [exact G'|]. cbn in *.
        repeat split; auto; try lia.
        { destruct (Nat.eq_dec k' (S k)) as [->|]; [rewrite R6; auto|]. apply R7; lia. }
        { intros j Hj. destruct (Nat.eq_dec j (S k)) as [->|].
          - destruct R7 as [_ R7]; [lia|]. exact R7.
          - apply R8; lia. }
      * cbn [rbind]. exists k. eexists _, _, _. split; [reflexivity|]. split.
        { destruct H; constructor; cbn; auto; try congruence. all: try (rewrite Es, Ef; reflexivity). all: rewrite N_len, Ef; lia. }
        cbn. repeat split; auto; try lia. right. rewrite N_len, Ef. repeat split; auto; lia.
      * cbn [rbind]. exists k. eexists _, _, _. split; [reflexivity|]. split.
        { destruct H; constructor; cbn; auto; try congruence. all: try (rewrite Es, Ef; reflexivity). all: rewrite N_len, Ef; lia. }
        cbn. repeat split; auto; try lia. rewrite N_len, Ef. lia.
      * cbn [rbind]. exists k. eexists _, _, _. split; [reflexivity|]. split.
        { destruct H; constructor; cbn; auto; try congruence. all: try (rewrite Es, Ef; reflexivity). all: rewrite N_len, Ef; lia. }
        cbn. repeat split; auto; try lia. rewrite N_len, Ef. lia.
    + destruct (nth_ins_rune k r sz rest Es) as (Lk & Na & Sk & Ps).
      cbn [q_push list_ops lift rbind q_last q_len].
      assert (Kn : (k < N)%nat) by (rewrite N_len; lia).
      set (a := mkatom r 0 0) in *.
      pose (s1 := mkS (dq s) (Some (mkrd rest f)) (brks s) (rbuf s) (lastp s) (pos s + sz) (boz s) (lam s) (bpos s) false (inUse s) (err s) : SL).
      match goal with |- context [mkS (dq s) (Some (mkrd rest f)) ?a1 ?a2 ?a3 ?a4 ?a5 ?a6 ?a7 ?a8 ?a9 ?a10] =>
        change (mkS (dq s) (Some (mkrd rest f)) a1 a2 a3 a4 a5 a6 a7 a8 a9 a10) with (s1 : SL) end.
      destruct (round k c s d a (d ++ [a]) s1 H Kn Na eq_refl) as (bs & lm & d2 & F1 & F2); auto.
      { unfold s1; cbn [rdr]. rewrite Sk. reflexivity. }
      { simpl. rewrite (G_pos _ _ _ _ H). auto. }
      { simpl. congruence. }
      replace (zget (d ++ [a]) (zlen (d ++ [a]) - 1)) with (Some a).
      2:{ rewrite zlen_app. change (zlen [a]) with 1. rewrite zget_app. destruct (Z.ltb_spec (zlen d + 1 - 1) (zlen d)); try lia.
          replace (zlen d + 1 - 1 - zlen d) with 0 by lia. reflexivity. }
      cbn [lift rbind]. rewrite F1. cbn [rbind]. destruct (F2 bound) as [F3 F4]. rewrite F3. cbn [rbind].
      specialize (F4 _ eq_refl).
      destruct (IH (S k) c _ d2 F4) as (k' & s' & d' & e & E & G' & Lk2 & R1 & R2 & R3 & R4 & R5 & R6 & R7 & R8 & R9 & R10).
      { cbn. lia. }
      exists k', s', d', e. split; [exact E|]. split; [exact G'|]. cbn in *.
      repeat split; auto; try lia.
      { destruct (Nat.eq_dec k' (S k)) as [->|]; [rewrite R6; auto|]. apply R7; lia. }
      { intros j Hj. destruct (Nat.eq_dec j (S k)) as [->|].
        - destruct R7 as [_ R7]; [lia|]. exact R7.
        - apply R8; lia. }
Qed.

(* ---- delivering the front segment ---- *)
Definition writes (w : runewrite) (l : list Z) : runewrite := fold_left (fun w r => fst (WriteRune w r)) l w.
Definition pens_last (lp : Z * Z) (l : list atom) : Z * Z := fold_left (fun _ a => (ap0 a, ap1 a)) l lp.

Lemma pop_loop_ok : forall n d w lp, (n <= length d)%nat ->
  pop_loop OL n d w lp = Ok (skipn n d, writes w (map ar (firstn n d)), pens_last lp (firstn n d)).
Proof.
  induction n as [|n IH]; intros d w lp L; [reflexivity|]. destruct d as [|a d]; simpl in L; [lia|].
  cbn [pop_loop q_pop list_ops lift rbind]. rewrite IH by lia. reflexivity.
Qed.

(* length of the front segment, minus one, for a break at bp *)
Definition front (k c : nat) (bp bound : Z) : Z :=
  if pos_at k - Z.of_nat (k - c) + bp >=? bound then bound - pos_at k + Z.of_nat (k - c) else bp.
Lemma front_le k c bp bound : front k c bp bound <= bp.
Proof. unfold front. destruct (Z.geb_spec (pos_at k - Z.of_nat (k - c) + bp) bound); lia. Qed.

Lemma queue_skip k c n : skipn n (queue k c) = queue k (c + n).
Proof.
  unfold queue. generalize (effs ins (firstn k mat)) as l. revert n. induction c; intros n l; simpl; auto.
  destruct l; simpl; auto. now rewrite skipn_nil.
Qed.

Lemma getFront_ok bound k c s d : G k c s d -> 0 <= bpos s ->
  exists s' d',
    getFrontSegment OL s d bound = Ok (s', d') /\
    G k (c + Z.to_nat (front k c (bpos s) bound + 1)) s' d' /\
    rbuf s' = writes (SetMark (rbuf s)) (map ar (firstn (Z.to_nat (front k c (bpos s) bound + 1)) d)) /\
    lastp s' = pens_last (0, 0) (firstn (Z.to_nat (front k c (bpos s) bound + 1)) d) /\
    err s' = err s /\ atEOF s' = atEOF s /\ inUse s' = inUse s /\
    bpos s' = (if front k c (bpos s) bound <? 0 then bpos s
               else find_at k (c + Z.to_nat (front k c (bpos s) bound + 1)) bound).
Proof.
  intros H Hb. pose proof H as [Hc Hk Hd Hr Hbr Hp Hl Hbp He Hne Hz].
  assert (LQ : zlen d = Z.of_nat (k - c)) by (rewrite Hd; apply queue_len; auto).
  unfold getFrontSegment. cbn [q_len list_ops]. rewrite LQ, Hp.
  assert (Bp : 0 <= bpos s < Z.of_nat (k - c)) by lia.
  replace (Z.min (Z.of_nat (k - c) - 1) (bpos s)) with (bpos s) by lia.
  destruct (Z.ltb_spec (bpos s) 0); try lia.
  fold (front k c (bpos s) bound). pose proof (front_le k c (bpos s) bound) as Fl.
  set (l := front k c (bpos s) bound) in *.
  destruct (Z.ltb_spec l 0) as [Ln|Ln].
  - eexists _, _. split; [reflexivity|]. replace (Z.to_nat (l + 1)) with 0%nat by lia.
    rewrite Nat.add_0_r. split; [constructor; cbn; auto; congruence|]. cbn. repeat split; auto.
  - assert (Le : (Z.to_nat (l + 1) <= length d)%nat) by (unfold zlen in LQ; lia).
    rewrite pop_loop_ok by auto. cbn [rbind].
    assert (Q2 : skipn (Z.to_nat (l + 1)) d = queue k (c + Z.to_nat (l + 1))) by (rewrite Hd; apply queue_skip).
    assert (L2 : zlen (skipn (Z.to_nat (l + 1)) d) = Z.of_nat (k - (c + Z.to_nat (l + 1)))).
    { rewrite Q2. apply queue_len; lia. }
    rewrite L2. pose proof (lam_at_nonneg k). rewrite Hl.
    rewrite find_fbo by lia. cbn [rbind]. rewrite (stest_G _ _ _ _ H). rewrite Q2.
    fold (find_at k (c + Z.to_nat (l + 1)) bound).
    eexists _, _. split; [reflexivity|]. split.
    { constructor; cbn; auto; try lia; try congruence. apply find_at_range; lia. }
    cbn. repeat split; auto.
Qed.

(* ---- one call ---- *)
Definition GS (k c : nat) (s : SL) : Prop := exists d, dq s = Some d /\ G k c s d.

Lemma G_same k c s s' d : G k c s d -> rdr s' = rdr s -> brks s' = brks s -> pos s' = pos s -> lam s' = lam s ->
  bpos s' = bpos s -> atEOF s' = atEOF s -> boz s' = boz s -> G k c s' d.
Proof. intros [] E1 E2 E3 E4 E5 E6 E7. constructor; rewrite ?E1, ?E2, ?E3, ?E4, ?E5, ?E6, ?E7; auto. Qed.

Definition upd_err (e : error) (o : option error) : option error :=
  match o with None | Some EOF => Some e | Some e' => Some e' end.

(* The break position used by a call that read from k to k'. *)
Definition brk (k k' c : nat) (bound : Z) (s : SL) : Z := if (k' =? k)%nat then bpos s else find_at k' c bound.

Lemma next_ok bound k c s : GS k c s ->
  exists b k' s', next OL bstep bound s = Ok (b, s') /\ (k <= k' <= N)%nat /\
    ((k < k')%nat -> bpos s < 0) /\
    (forall j, (k < j < k')%nat -> find_at j c bound < 0) /\
    (if b then
       let bp := brk k k' c bound s in
       let n := Z.to_nat (front k' c bp bound + 1) in
       0 <= bp /\ GS k' (c + n) s' /\
       rbuf s' = writes (SetMark (rbuf s)) (map ar (firstn n (queue k' c))) /\
       lastp s' = pens_last (0, 0) (firstn n (queue k' c)) /\
       bpos s' = (if front k' c bp bound <? 0 then bp else find_at k' (c + n) bound) /\
       err s' = err s /\
       (atEOF s' = false -> pos_at k' - Z.of_nat (k' - c) <= bound)
     else
       GS k' c s' /\ lastp s' = lastp s /\ bpos s' = brk k k' c bound s /\
       ((rbuf s' = rbuf s /\ err s' = err s /\ pos_at k' - Z.of_nat (k' - c) > bound /\ atEOF s = false) \/
        (rbuf s' = Reset (rbuf s) None /\ err s' = err s /\ brk k k' c bound s < 0 /\ k' = N /\ atEOF s' = true) \/
        (rbuf s' = Reset (rbuf s) None /\ brk k k' c bound s < 0 /\ err s' = upd_err ErrBoundReached (err s) /\
         pos_at k' - lam_at k' > bound) \/
        (rbuf s' = Reset (rbuf s) None /\ brk k k' c bound s < 0 /\ err s' = upd_err f (err s) /\ f <> EOF /\ k' = N /\ atEOF s' = true))).
Proof.
  intros [d [Hd H0]]. unfold next. rewrite (G_rdr _ _ _ _ H0).
  set (s1 := set_inUse s). assert (H : G k c s1 d) by (eapply G_same; eauto).
  assert (B1 : bpos s1 = bpos s) by reflexivity. assert (E1 : err s1 = err s) by reflexivity.
  assert (R1 : rbuf s1 = rbuf s) by reflexivity. assert (D1 : dq s1 = Some d) by exact Hd.
  assert (P1 : lastp s1 = lastp s) by reflexivity. assert (A1 : atEOF s1 = atEOF s) by reflexivity.
  clearbody s1. pose proof (G_k _ _ _ _ H) as Kn. pose proof (G_c _ _ _ _ H) as Kc.
  assert (LQ : zlen d = Z.of_nat (k - c)) by (rewrite (G_d _ _ _ _ H); apply queue_len; auto).
  (* delivering with the break at hand *)
  assert (DELIVER : forall k' s2 d2, G k' c s2 d2 -> (k <= k')%nat -> 0 <= bpos s2 -> bpos s2 = brk k k' c bound s ->
    rbuf s2 = rbuf s -> err s2 = err s -> ((k < k')%nat -> bpos s < 0) -> (forall j, (k < j < k')%nat -> find_at j c bound < 0) ->
    (atEOF s2 = false -> pos_at k' - Z.of_nat (k' - c) <= bound) ->
    exists b k' s', (let* (s3, d3) := getFrontSegment OL s2 d2 bound in Ok (true, set_dq d3 s3)) = Ok (b, s') /\ (k <= k' <= N)%nat /\
      ((k < k')%nat -> bpos s < 0) /\ (forall j, (k < j < k')%nat -> find_at j c bound < 0) /\
      (if b then
       let bp := brk k k' c bound s in
       let n := Z.to_nat (front k' c bp bound + 1) in
       0 <= bp /\ GS k' (c + n) s' /\
       rbuf s' = writes (SetMark (rbuf s)) (map ar (firstn n (queue k' c))) /\
       lastp s' = pens_last (0, 0) (firstn n (queue k' c)) /\
       bpos s' = (if front k' c bp bound <? 0 then bp else find_at k' (c + n) bound) /\
       err s' = err s /\ (atEOF s' = false -> pos_at k' - Z.of_nat (k' - c) <= bound)
       else False)).
  { intros k' s2 d2 H2 Lk Hb Eb Er Ee Hlt Hj Hat.
    destruct (getFront_ok bound k' c s2 d2 H2 Hb) as (s3 & d3 & F & G3 & W & P & Er3 & At3 & _ & Bp3).
    rewrite F. cbn [rbind]. exists true, k', (set_dq d3 s3). split; [reflexivity|].
    split; [split; [auto|apply (G_k _ _ _ _ H2)]|]. split; [auto|]. split; [auto|].
    rewrite <- Eb. cbn zeta. split; [auto|]. split.
    { exists d3. split; [reflexivity|]. eapply G_same; eauto. }
    rewrite (G_d _ _ _ _ H2) in W, P. cbn. rewrite W, P, Er, Er3, Ee, Bp3.
    repeat split; auto. intros X. apply Hat. cbn in X. congruence. }
  assert (BK : brk k k c bound s = bpos s) by (unfold brk; now rewrite Nat.eqb_refl).
  rewrite D1. destruct (atEOF s1) eqn:Ea; cbn [negb].
  - destruct (Z.ltb_spec (bpos s1) 0) as [Lb|Lb].
    + exists false, k. eexists. split; [reflexivity|]. split; [lia|]. split; [lia|]. split; [lia|]. cbn.
      split; [exists d; split; [exact D1|eapply G_same; eauto]|]. split; [auto|]. split; [congruence|].
      right; left. split; [rewrite <- R1; reflexivity|]. split; [auto|]. split; [lia|]. split; [apply (G_eof _ _ _ _ H Ea)|auto].
    + destruct (DELIVER k s1 d H) as (b & k' & s' & X1 & X2 & X3 & X4 & X5); try congruence; try lia.
      exists b, k', s'. destruct b; [|contradiction]. auto.
  - destruct (Z.ltb_spec (bpos s1) 0) as [Lb|Lb].
    + destruct (readEnough_ok bound (read_fuel s1) k c s1 d H) as
        (k' & s2 & d2 & e & E & G' & Lk2 & Q1 & Q2 & Q3 & Q4 & Q5 & Q6 & Q7 & Q8 & Q9 & Q10).
      { rewrite Ea. unfold read_fuel. rewrite (G_rdr _ _ _ _ H). cbn [items]. rewrite skipn_length. lia. }
      rewrite E. cbn [rbind].
      assert (BK2 : bpos s2 = brk k k' c bound s).
      { unfold brk. destruct (Nat.eqb_spec k' k); [rewrite Q6 by auto; auto|]. apply Q7. lia. }
      assert (LQ2 : zlen d2 = Z.of_nat (k' - c)).
      { rewrite (G_d _ _ _ _ G'). apply queue_len; [apply (G_c _ _ _ _ G')|apply (G_k _ _ _ _ G')]. }
      assert (Gq : G k' c (set_dq d2 s2) d2) by (eapply G_same; eauto).
      assert (KN : (k <= k' <= N)%nat) by (split; [auto|apply (G_k _ _ _ _ G')]).
      assert (J : forall j, (k < j < k')%nat -> find_at j c bound < 0) by auto.
      assert (Hlt : (k < k')%nat -> bpos s < 0) by (intros; lia).
      assert (Pk : pos (set_dq d2 s2) = pos_at k') by exact (G_pos _ _ _ _ G').
      cbn [q_len list_ops]. rewrite LQ2, Pk.
      destruct e as [e|].
      * assert (B0 : bpos s2 < 0) by (destruct e; tauto).
        assert (MEOF : e = EOF -> k' = N /\ atEOF s2 = true) by (intros ->; tauto).
        assert (MB : e = ErrBoundReached -> pos_at k' - lam_at k' > bound \/ (k' = N /\ f = e /\ atEOF s2 = true)).
        { intros ->. destruct Q10 as [_ X]. rewrite <- (G_pos _ _ _ _ G'), <- (G_lam _ _ _ _ G'). intuition. }
        assert (MO : e <> EOF -> e <> ErrBoundReached -> k' = N /\ f = e /\ atEOF s2 = true).
        { intros X1 X2. destruct e; try contradiction; try congruence; destruct Q10 as (_ & Y1 & Y2 & [Y3|Y3]); auto; discriminate. }
        clear Q10 Q7 Q8 DELIVER.
        assert (FAIL : e <> EOF -> exists b k' s', Ok (false, set_rbuf (Reset (rbuf (set_dq d2 s2)) None) (setErr e (set_dq d2 s2))) = Ok (b, s') /\
          (k <= k' <= N)%nat /\ ((k < k')%nat -> bpos s < 0) /\ (forall j, (k < j < k')%nat -> find_at j c bound < 0) /\
          (if b then False else GS k' c s' /\ lastp s' = lastp s /\ bpos s' = brk k k' c bound s /\
           ((rbuf s' = Reset (rbuf s) None /\ brk k k' c bound s < 0 /\ err s' = upd_err ErrBoundReached (err s) /\
             pos_at k' - lam_at k' > bound) \/
            (rbuf s' = Reset (rbuf s) None /\ brk k k' c bound s < 0 /\ err s' = upd_err f (err s) /\ f <> EOF /\ k' = N /\ atEOF s' = true)))).
        { intros Ne. exists false, k'. eexists. split; [reflexivity|]. split; [auto|]. split; [auto|]. split; [auto|]. cbn.
          split; [exists d2; split; [reflexivity|eapply G_same; eauto]|]. split; [congruence|]. split; [auto|].
          rewrite Q1, Q4, R1, E1. rewrite <- BK2.
          destruct e; try congruence.
          - destruct (MB eq_refl) as [X|(X1 & X2 & X3)]; [left; auto|right]. rewrite X2. repeat split; auto; discriminate.
          - destruct (MO Ne ltac:(discriminate)) as (X1 & X2 & X3). right. rewrite X2. repeat split; auto.
          - destruct (MO Ne ltac:(discriminate)) as (X1 & X2 & X3). right. rewrite X2. repeat split; auto. }
        destruct e.
        { destruct (MEOF eq_refl) as [X1 X2].
          destruct (Z.gtb_spec (pos_at k' - Z.of_nat (k' - c)) bound).
          - exists false, k'. eexists. split; [reflexivity|]. split; [auto|]. split; [auto|]. split; [auto|]. cbn.
            split; [exists d2; split; [reflexivity|auto]|]. split; [congruence|]. split; [auto|].
            left. split; [congruence|]. split; [congruence|]. split; [lia|congruence].
          - cbn [bpos set_dq]. destruct (Z.ltb_spec (bpos s2) 0); try lia.
            exists false, k'. eexists. split; [reflexivity|]. split; [auto|]. split; [auto|]. split; [auto|]. cbn.
            split; [exists d2; split; [reflexivity|eapply G_same; eauto]|]. split; [congruence|]. split; [auto|].
            right; left. rewrite Q1, R1, Q4, <- BK2. auto. }
        all: destruct FAIL as (b & k2 & s' & X1 & X2 & X3 & X4 & X5); [discriminate|];
             exists b, k2, s'; destruct b; [contradiction|]; split; [exact X1|]; intuition.
      * destruct (Z.gtb_spec (pos_at k' - Z.of_nat (k' - c)) bound).
        { exists false, k'. eexists. split; [reflexivity|]. split; [auto|]. split; [auto|]. split; [auto|]. cbn.
          split; [exists d2; split; [reflexivity|auto]|]. split; [congruence|]. split; [auto|].
          left. split; [congruence|]. split; [congruence|]. split; [lia|congruence]. }
        cbn [bpos set_dq]. destruct (Z.ltb_spec (bpos s2) 0); try lia.
        destruct (DELIVER k' (set_dq d2 s2) d2 Gq) as (b & k2 & s' & X1 & X2 & X3 & X4 & X5); auto; cbn; try congruence; try lia.
        exists b, k2, s'. destruct b; [|contradiction]. auto.
    + assert (Pk : pos s1 = pos_at k) by exact (G_pos _ _ _ _ H). cbn [q_len list_ops]. rewrite Pk, LQ.
      destruct (Z.gtb_spec (pos_at k - Z.of_nat (k - c)) bound).
      * exists false, k. eexists. split; [reflexivity|]. split; [lia|]. split; [lia|]. split; [lia|].
        split; [exists d; split; [exact D1|auto]|]. split; [congruence|]. split; [congruence|].
        left. split; [congruence|]. split; [congruence|]. split; [lia|congruence].
      * destruct (DELIVER k s1 d H) as (b & k2 & s' & X1 & X2 & X3 & X4 & X5); auto; try congruence; try lia.
        exists b, k2, s'. destruct b; [|contradiction]. auto.
Qed.
End Inv.
