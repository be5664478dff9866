(* SegBound.v -- what one bounded search delivers, and what the calls of Next after it deliver. *)
From Coq Require Import List ZArith Lia Bool.
From Verif Require Import Base RuneWrite Segmenter SegSpec PrioQProofs SegProofs SegInv SegNext SegCut SegSim SegFacade SegTheorems.
Import ListNotations.
Open Scope Z_scope.

(* segments, the first without its first d runes *)
Definition behind (d : Z) (l : list (list Z * (Z * Z))) : list (list Z * (Z * Z)) :=
  match l with [] => [] | (w, p) :: t => (skipn (Z.to_nat d) w, p) :: t end.

Section Bound.
Context {B : Type} (bstep : B -> Z -> B * Z * list Z).
Context (bs0 : list B) (text : list Z) (z0 : bool * bool).
Notation its := (ones text).
Notation f := EOF.
Context (total : zlen text < MaxInt).
Notation SL := (state (list atom) B).
Notation OL := list_ops.
Notation rs := (rs its).
Notation ins := (ins its f).
Notation irunes := (irunes its f).
Notation mat := (mat bstep bs0 its f).
Notation N := (N its f).
Notation lam_at := (lam_at bstep bs0 its f).
Notation pos_at := (pos_at its).
Notation queue := (queue bstep bs0 its f).
Notation test0 := (test0 bs0 z0).
Notation GS := (GS bstep bs0 its f z0).
Notation at_ := (at_ bstep bs0 its f z0).
Notation F := (F bstep bs0 its f z0).
Notation T := (T bstep bs0 its f z0).
Notation Tf := (Tf bstep bs0 its f z0).
Notation rest := (rest bstep bs0 its f).
Notation find_at := (find_at bstep bs0 its f z0).
Notation R := (reach mat).
Context (ob : obeys mat) (es : eot_safe mat).

Lemma b_sizes : Forall (fun it : Z * Z => 1 <= snd it) its. Proof. exact (proj1 (ones_sizes text)). Qed.
Lemma b_total : sizes its < MaxInt. Proof. rewrite (proj2 (ones_sizes text)). exact total. Qed.
Lemma b_rs : rs = text. Proof. apply ones_fst. Qed.
Lemma b_len : length its = length text. Proof. apply map_length. Qed.
Lemma b_N : N = S (length text). Proof. rewrite N_len, b_len. lia. Qed.
Lemma b_strict : strictly_conforming ins mat. Proof. apply obeys_strict, ob. Qed.
Lemma b_conf : conforming test0 ins mat. Proof. apply strict_conf, b_strict. Qed.
Lemma b_T k p : (k <= N)%nat -> Z.of_nat p < Z.of_nat k - lam_at k -> T k p = Tf p.
Proof. apply T_Tf, b_conf. Qed.
Lemma b_pos k : (k <= N)%nat -> pos_at k = Z.of_nat (Nat.min k (length text)).
Proof.
  intros _. unfold SegInv.pos_at, ones. rewrite firstn_map. fold (ones (firstn k text)).
  rewrite (proj2 (ones_sizes (firstn k text))). unfold zlen. now rewrite firstn_length.
Qed.
Lemma b_mono k k' : (1 <= k <= k')%nat -> (k' <= N)%nat -> Z.of_nat k - lam_at k <= Z.of_nat k' - lam_at k'.
Proof.
  intros H1 H2. rewrite <- !(settled_lam bstep bs0 its f) by lia. apply settled_mono; auto.
  rewrite (mat_len bstep bs0 its f). lia.
Qed.

(* the first break at or after c is at c + i *)
Definition first_break (c i : nat) : Prop :=
  (c + i < R)%nat /\ Tf (c + i) = true /\ forall p, (c <= p < c + i)%nat -> Tf p = false.
Definition pens (p : nat) : Z * Z := let a := eff ins mat p in (ap0 a, ap1 a).

Lemma reach_from k p : (k <= N)%nat -> Z.of_nat p < Z.of_nat k - lam_at k -> (p < R)%nat.
Proof.
  intros Hk Hp. pose proof (lam_at_nonneg bstep bs0 its f k). pose proof (reach_ge mat k) as X.
  rewrite (mat_len bstep bs0 its f) in X. rewrite settled_lam in X by lia. specialize (X ltac:(lia)). lia.
Qed.
Lemma reach_last p : (p < R)%nat -> Z.of_nat p < Z.of_nat N - lam_at N.
Proof.
  intros H. destruct (reach_in mat p H) as (q & Q1 & Q2). rewrite (mat_len bstep bs0 its f) in Q1.
  rewrite settled_lam in Q2 by lia. pose proof (b_mono q N ltac:(lia) ltac:(lia)). lia.
Qed.
Lemma first_unique c i j : first_break c i -> first_break c j -> i = j.
Proof.
  intros (_ & A1 & A2) (_ & B1 & B2). destruct (lt_eq_lt_dec i j) as [[H|H]|H]; auto.
  - rewrite B2 in A1 by lia. discriminate.
  - rewrite A2 in B1 by lia. discriminate.
Qed.
Lemma first_text c i : first_break c i -> (c + S i <= length text)%nat.
Proof.
  intros (H1 & H2 & _). pose proof (reach_le mat) as L. rewrite (mat_len bstep bs0 its f), b_N in L.
  pose proof (eot_not_break bstep bs0 its f z0 eq_refl es) as E. rewrite b_len in E.
  destruct (Nat.eq_dec (c + i) (length text)) as [X|]; [|lia]. rewrite X in H2. congruence.
Qed.
Lemma F_first k c i : (c <= k)%nat -> (k <= N)%nat -> F k c = Some i -> first_break c i /\ Z.of_nat (c + i) < Z.of_nat k - lam_at k.
Proof.
  intros Hc Hk Fi. destruct (F_lt bstep bs0 its f z0 k c i Fi Hc Hk) as [L1 L2].
  destruct (F_Some bstep bs0 its f z0 k c i Fi Hc Hk) as [T1 T2]. split; [|exact L2]. split; [|split].
  - apply (reach_from k); auto.
  - rewrite <- (b_T k); auto.
  - intros p Hp. rewrite <- (b_T k) by (auto; lia). apply T2. lia.
Qed.
Lemma first_F k c i : (c <= k)%nat -> (k <= N)%nat -> first_break c i -> Z.of_nat (c + i) < Z.of_nat k - lam_at k -> F k c = Some i.
Proof.
  intros Hc Hk X L. destruct (F k c) as [j|] eqn:E.
  - destruct (F_first k c j Hc Hk E) as [Y _]. f_equal. exact (first_unique _ _ _ Y X).
  - destruct X as (_ & X & _). rewrite <- (b_T k) in X by auto.
    rewrite (F_None bstep bs0 its f z0 k c E Hc Hk) in X; [discriminate|lia|auto].
Qed.

Lemma seg_text c n : (c + n <= length text)%nat -> firstn n (skipn c irunes) = firstn n (skipn c text).
Proof.
  intros H. rewrite irunes_EOF, ones_fst, skipn_app, firstn_app.
  replace (n - length (skipn c text))%nat with 0%nat by (rewrite skipn_length; lia). now rewrite firstn_O, app_nil_r.
Qed.

Notation pieces c := (cut test0 (rest c) []).
Lemma cut_first c i : first_break c i -> pieces c = (firstn (S i) (skipn c text), pens (c + i)) :: pieces (c + S i).
Proof.
  intros X. pose proof (first_text c i X) as Lt. destruct X as (X1 & X2 & X3).
  assert (Sp : rest c = firstn i (rest c) ++ eff ins mat (c + i) :: rest (c + S i)).
  { rewrite <- (rest_nth bstep bs0 its f c i X1). rewrite <- (rest_skip bstep bs0 its f c (S i)).
    rewrite <- skipn_nth by (rewrite rest_len; lia). now rewrite firstn_skipn. }
  assert (Fa : Forall (fun a => test0 a = false) (firstn i (rest c))).
  { apply Forall_forall. intros a Ia. apply (In_nth _ _ zeroAtom) in Ia. destruct Ia as (j & Lj & <-).
    rewrite firstn_length, rest_len in Lj. rewrite nth_firstn by lia. rewrite rest_nth by lia. apply X3. lia. }
  rewrite Sp at 1. rewrite cut_some by auto. f_equal. f_equal.
  rewrite <- (seg_text c (S i)) by lia. rewrite <- (rest_runes bstep bs0 its f c (S i)) by lia.
  rewrite (firstn_snoc (rest c) i zeroAtom) by (rewrite rest_len; lia).
  rewrite map_app. cbn [map]. rewrite rest_nth by auto. reflexivity.
Qed.
Lemma cut_empty c : (forall p, (c <= p < R)%nat -> Tf p = false) -> pieces c = [].
Proof.
  intros H. apply cut_none. apply Forall_forall. intros a Ia. apply (In_nth _ _ zeroAtom) in Ia.
  destruct Ia as (j & Lj & <-). rewrite rest_len in Lj. rewrite rest_nth by lia. apply H. lia.
Qed.
Lemma first_or_none c : (exists i, first_break c i) \/ (forall p, (c <= p < R)%nat -> Tf p = false).
Proof.
  assert (X : forall n, (exists i, first_break c i) \/ (forall p, (c <= p < c + n)%nat -> (p < R)%nat -> Tf p = false)).
  { induction n as [|n [IH|IH]]; [right; intros; lia|auto|].
    destruct (le_lt_dec R (c + n)) as [L|L].
    - right. intros p Hp Hr. apply IH; lia.
    - destruct (Tf (c + n)) eqn:E.
      + left. exists n. split; [auto|]. split; [auto|]. intros p Hp. apply IH; lia.
      + right. intros p Hp Hr. destruct (Nat.eq_dec p (c + n)) as [->|]; auto. apply IH; lia. }
  destruct (X (R - c)%nat) as [Y|Y]; [auto|right]. intros p Hp. apply Y; lia.
Qed.
Lemma cut_inv c x t : pieces c = x :: t -> exists i, first_break c i /\ x = (firstn (S i) (skipn c text), pens (c + i)) /\ t = pieces (c + S i).
Proof.
  intros H. destruct (first_or_none c) as [[i X]|X].
  - exists i. split; [auto|]. rewrite (cut_first c i X) in H. injection H as <- <-. auto.
  - rewrite (cut_empty c X) in H. discriminate.
Qed.
(* without a break in the first j runes the first piece begins with them *)
Lemma first_later c i j : first_break c i -> (j <= i)%nat -> first_break (c + j) (i - j).
Proof.
  intros (X1 & X2 & X3) H. replace (c + i)%nat with (c + j + (i - j))%nat in * by lia.
  split; [auto|]. split; [auto|]. intros p Hp. apply X3. lia.
Qed.

Lemma skipn_more {A} (l : list A) c d : skipn (c + d) l = skipn d (skipn c l).
Proof. revert l. induction c as [|c IH]; intros [|x l]; cbn [Nat.add skipn]; auto. now rewrite skipn_nil. Qed.
Lemma cut_behind c x : (c <= x)%nat -> (forall p, (c <= p < x)%nat -> Tf p = false) -> pieces x = behind (Z.of_nat x - Z.of_nat c) (pieces c).
Proof.
  intros Hx Hn. destruct (first_or_none c) as [[i X]|X].
  - assert (x - c <= i)%nat.
    { destruct (le_lt_dec (x - c) i) as [L|L]; [auto|]. destruct X as (_ & X & _). rewrite Hn in X by lia. discriminate. }
    pose proof (first_later c i (x - c) X ltac:(lia)) as Y. replace (c + (x - c))%nat with x in Y by lia.
    rewrite (cut_first c i X), (cut_first x _ Y). cbn [behind]. f_equal.
    + f_equal; [|f_equal; lia]. rewrite skipn_firstn_comm. replace x with (c + (x - c))%nat at 2 by lia. rewrite skipn_more.
      replace (Z.to_nat (Z.of_nat x - Z.of_nat c)) with (x - c)%nat by lia. f_equal. lia.
    + do 2 f_equal. lia.
  - rewrite (cut_empty c X), (cut_empty x); [reflexivity|]. intros p Hp. apply X. lia.
Qed.

(* ---- the result of the search for a break position ---- *)
Definition eps (k : nat) : Z := Z.of_nat k - Z.of_nat (Nat.min k (length text)).
Lemma eps_in k : (k <= length text)%nat -> eps k = 0. Proof. unfold eps. lia. Qed.
Lemma eps_le k : (k <= N)%nat -> 0 <= eps k <= 1. Proof. rewrite b_N. unfold eps. lia. Qed.

Lemma find_cases k c b : (c <= k)%nat -> (k <= N)%nat -> b <= MaxInt ->
  let D := b - 1 - Z.of_nat c + eps k in
  (find_at k c (b - 1) = -1 /\ (D < 0 \/ (forall p, (c <= p)%nat -> Z.of_nat p < Z.of_nat k - lam_at k -> Tf p = false) /\ Z.of_nat k - lam_at k < Z.of_nat c + D + 1)) \/
  (exists i, find_at k c (b - 1) = Z.of_nat i /\ first_break c i /\ Z.of_nat (c + i) < Z.of_nat k - lam_at k /\ Z.of_nat i <= D) \/
  (find_at k c (b - 1) = D /\ 0 <= D /\ Z.of_nat c + D + 1 <= Z.of_nat k - lam_at k /\
   forall p, (c <= p)%nat -> Z.of_nat p <= Z.of_nat c + D -> Tf p = false).
Proof.
  intros Hc Hk Hb D. unfold SegInv.find_at, fbo. pose proof (lam_at_nonneg bstep bs0 its f k) as Ln.
  assert (Q : length (queue k c) = (k - c)%nat).
  { pose proof (queue_len bstep bs0 its f k c Hc Hk) as Q. unfold zlen in Q. lia. }
  assert (BD : bound_dist (b - 1) (pos_at k) (Z.of_nat (k - c)) = D).
  { unfold bound_dist. rewrite b_pos by auto. destruct (Z.ltb_spec (b - 1) MaxInt); [|lia]. unfold D, eps. lia. }
  rewrite BD. destruct (Z.ltb_spec D 0) as [LD|LD]; [rewrite orb_true_r; left; auto|].
  rewrite orb_false_r. destruct (Z.ltb_spec (Z.of_nat (k - c) - lam_at k - 1) 0) as [L|L].
  - left. split; [auto|]. right. split; [intros; lia|lia].
  - destruct (ffind test0 _ (queue k c)) as [i|] eqn:E.
    + right; left. exists i. split; [auto|]. apply ffind_Some in E. destruct E as (E1 & E2 & (a & E3 & Ta) & E4).
      assert (Li : Z.of_nat (c + i) < Z.of_nat k - lam_at k) by lia.
      split; [|split; [auto|lia]]. split; [apply (reach_from k); auto|]. split.
      * rewrite <- (b_T k) by auto. unfold SegNext.T. rewrite <- queue_nth by lia. now rewrite (nth_error_nth _ _ zeroAtom E3).
      * intros p Hp. rewrite <- (b_T k) by (auto; lia). unfold SegNext.T. replace p with (c + (p - c))%nat by lia.
        rewrite <- queue_nth by lia. apply (E4 (p - c)%nat); [lia|]. apply nth_error_nth'. lia.
    + assert (No : forall p, (c <= p)%nat -> Z.of_nat p < Z.of_nat k - lam_at k -> Z.of_nat p <= Z.of_nat c + D -> Tf p = false).
      { intros p H1 H2 H3. rewrite <- (b_T k) by auto. unfold SegNext.T. replace p with (c + (p - c))%nat by lia.
        rewrite <- queue_nth by lia. apply (ffind_None _ _ _ E (p - c)%nat); [lia|]. apply nth_error_nth'. lia. }
      destruct (Z.leb_spec (D + 1) (Z.of_nat (k - c) - lam_at k)) as [L2|L2].
      * right; right. split; [auto|]. split; [auto|]. split; [lia|]. intros; apply No; lia.
      * left. split; [auto|]. right. split; [|lia]. intros; apply No; lia.
Qed.

(* ---- calls of Next ---- *)
(* The state between two calls: the break position at hand is the first one found, or none was kept. *)
Definition ready (k c : nat) (s : SL) : Prop :=
  GS k c s /\ (bpos s = match F k c with Some i => Z.of_nat i | None => -1 end \/ (bpos s = -1 /\ atEOF s = false)).
Notation kept mode c s := (holds mode text c (rbuf s)).
Notation shown mode l := (map (fun x : list Z * (Z * Z) => (view mode (fst x), snd x)) l).

Lemma at_ready k c s : at_ k c s -> ready k c s. Proof. intros [H1 H2]. split; auto. Qed.

(* the text of a delivered prefix *)
Lemma deliver mode k c n (s s' : SL) : (c + n <= k)%nat -> (k <= N)%nat -> (c + n <= length text)%nat -> kept mode c s -> wf_rw (rbuf s) ->
  rbuf s' = writes (SetMark (rbuf s)) (map ar (firstn n (queue k c))) ->
  kept mode (c + n) s' /\ wf_rw (rbuf s') /\ Text s' = Ok (view mode (firstn n (skipn c text))).
Proof.
  intros H1 H2 H3 W Wf Rb. rewrite seg_runes, seg_text in Rb by auto.
  assert (L : length (firstn n (skipn c text)) = n) by (rewrite firstn_length, skipn_length; lia).
  destruct (deliver_view mode text c (rbuf s) (firstn n (skipn c text)) W) as [D1 D2].
  { intros _. rewrite L. auto. }
  split; [rewrite Rb; rewrite L in D1; exact D1|]. split; [rewrite Rb; apply wf_writes, wf_mark, Wf|].
  unfold Text. rewrite Rb, D2. reflexivity.
Qed.
Lemma last_pens k c i : (c + i < k)%nat -> (k <= N)%nat -> Z.of_nat (c + i) < Z.of_nat k - lam_at k ->
  pens_last (0, 0) (firstn (S i) (queue k c)) = pens (c + i).
Proof.
  intros H1 H2 H3. rewrite seg_last by auto. unfold seg_pens, pens. rewrite (b_strict k (c + i)%nat); auto.
  - rewrite (mat_len bstep bs0 its f). lia.
  - rewrite settled_lam by lia. auto.
Qed.

Lemma neof_le k c s : GS k c s -> atEOF s = false -> (k <= length text)%nat.
Proof. intros (d & _ & H) A. pose proof (G_neof _ _ _ _ _ _ _ _ _ H A). rewrite b_len in *. auto. Qed.

Lemma next_ready mode k c (s : SL) : ready k c s -> kept mode c s -> wf_rw (rbuf s) ->
  (exists i k' s', first_break c i /\ exec OL bstep CNext s = Ok (Some (view mode (firstn (S i) (skipn c text)), pens (c + i)), s') /\
     at_ k' (c + S i) s' /\ kept mode (c + S i) s' /\ wf_rw (rbuf s') /\ Z.of_nat (c + S i) <= Z.of_nat k' - lam_at k') \/
  (exists s', pieces c = [] /\ exec OL bstep CNext s = Ok (None, s')).
Proof.
  intros [H Hb] W Wf. destruct (GS_bounds bstep bs0 its f z0 k c s H) as [C1 C2]. unfold exec, bound_of.
  destruct (next_ok bstep bs0 its f z0 MaxInt k c s H) as (b & k' & s' & E & K & Lt & J & Rr).
  pose proof (pos_le its b_sizes k') as P. pose proof b_total as Tt. pose proof (lam_at_nonneg bstep bs0 its f k') as Ln.
  assert (BK : brk bstep bs0 its f z0 k k' c MaxInt s = match F k' c with Some i => Z.of_nat i | None => -1 end).
  { unfold brk. destruct (Nat.eqb_spec k' k) as [->|]; [|apply find_at_max; auto using b_sizes, b_total; lia].
    destruct Hb as [Hb|[Hb Ha]]; [auto|exfalso]. pose proof (neof_le k c s H Ha) as Lk.
    unfold brk in Rr. rewrite Nat.eqb_refl in Rr. destruct b; [cbn zeta in Rr; destruct Rr; lia|].
    destruct Rr as (_ & _ & _ & [(_ & _ & X & _)|[(_ & _ & _ & X & _)|[(_ & _ & _ & X)|(_ & _ & _ & X & _)]]]).
    - lia. - rewrite b_N in X. lia. - lia. - congruence. }
  rewrite E. cbn [rbind]. destruct b.
  - cbn zeta in Rr. rewrite BK in Rr. destruct Rr as (Hp & H1 & Rb & Lp & Bp & _).
    destruct (F k' c) as [i|] eqn:Fi; [|lia]. destruct (F_first k' c i ltac:(lia) ltac:(lia) Fi) as [X L2].
    destruct (F_lt bstep bs0 its f z0 k' c i Fi ltac:(lia) ltac:(lia)) as [L1 _].
    assert (FM : front its k' c (Z.of_nat i) MaxInt = Z.of_nat i).
    { unfold front. rewrite Z.geb_leb. destruct (Z.leb_spec MaxInt (pos_at k' - Z.of_nat (k' - c) + Z.of_nat i)); auto. lia. }
    rewrite FM in *. replace (Z.to_nat (Z.of_nat i + 1)) with (S i) in * by lia.
    left. exists i, k', s'. split; [exact X|]. pose proof (first_text c i X) as Lx.
    destruct (deliver mode k' c (S i) s s') as (D1 & Df & D2); auto; try lia.
    rewrite D2. cbn [rbind]. unfold Penalties. rewrite Lp, last_pens by (auto; lia). split; [reflexivity|].
    split; [|split; [exact D1|split; [exact Df|lia]]]. split; [exact H1|]. destruct (Z.ltb_spec (Z.of_nat i) 0); [lia|]. rewrite Bp.
    apply find_at_max; auto using b_sizes, b_total; lia.
  - right. exists s'. split; [|reflexivity]. rewrite BK in Rr.
    destruct Rr as (H1 & _ & Bp & [(_ & _ & X & _)|[(_ & _ & X1 & X2 & _)|[(_ & _ & _ & X)|(_ & _ & _ & X & _)]]]); try lia; [|congruence].
    subst k'. assert (Fn : F N c = None) by (destruct (F N c); auto; lia).
    apply cut_empty. intros p Hp. pose proof (reach_last p ltac:(lia)) as Lp. rewrite <- (b_T N) by auto.
    apply (F_None bstep bs0 its f z0 N c Fn); try lia.
Qed.

Lemma loop_ready mode : forall n k c (s : SL), ready k c s -> kept mode c s -> wf_rw (rbuf s) -> (length text - c < n)%nat ->
  exists s', loop OL bstep n s = Ok (shown mode (pieces c), true, s').
Proof.
  induction n as [|n IH]; intros k c s H W Wf Hn.
  - lia.
  - destruct (next_ready mode k c s H W Wf) as [(i & k' & s' & X & E & H1 & W1 & Wf1 & _)|(s' & X & E)]; cbn [loop]; rewrite E; cbn [rbind].
    + pose proof (first_text c i X). destruct (IH k' (c + S i)%nat s' (at_ready _ _ _ H1) W1 Wf1 ltac:(lia)) as (s2 & E2). rewrite E2. cbn [rbind].
      exists s2. now rewrite (cut_first c i X).
    + exists s'. now rewrite X.
Qed.

(* n calls of Next *)
Lemma run_ready mode : forall n k c (s : SL), at_ k c s -> kept mode c s -> wf_rw (rbuf s) -> Z.of_nat c <= Z.of_nat k - lam_at k -> (n <= length (pieces c))%nat ->
  exists k' s', let c' := (c + length (concat (map fst (firstn n (pieces c)))))%nat in
    run OL bstep (repeat CNext n) s = Ok (map Some (shown mode (firstn n (pieces c))), s') /\
    at_ k' c' s' /\ kept mode c' s' /\ wf_rw (rbuf s') /\ Z.of_nat c' <= Z.of_nat k' - lam_at k' /\ skipn n (pieces c) = pieces c'.
Proof.
  induction n as [|n IH]; intros k c s H W Wf Hs Hn.
  - exists k, s. cbn [firstn map concat length skipn repeat run]. rewrite Nat.add_0_r. auto 8.
  - destruct (next_ready mode k c s (at_ready _ _ _ H) W Wf) as [(i & k1 & s1 & X & E & H1 & W1 & Wf1 & Hs1)|(s1 & X & _)]; [|rewrite X in Hn; cbn in Hn; lia].
    rewrite (cut_first c i X) in *. cbn [length] in Hn. pose proof (first_text c i X) as Lx.
    destruct (IH k1 (c + S i)%nat s1 H1 W1 Wf1 Hs1 ltac:(lia)) as (k' & s' & E2 & H2 & W2 & Wf2 & Hs2 & S2).
    exists k', s'. cbn [repeat run]. rewrite E. cbn [rbind]. rewrite E2. cbn [rbind].
    rewrite firstn_cons, skipn_cons, !map_cons, concat_cons, app_length. cbn [fst].
    assert (L : length (firstn (S i) (skipn c text)) = S i) by (rewrite firstn_length, skipn_length; lia).
    rewrite L. rewrite Nat.add_assoc. auto 8.
Qed.

(* ---- one bounded search ---- *)
(* nothing is read when the bound has been reached *)
Lemma next_stops bound k c (s : SL) : GS k c s -> bpos s < 0 -> atEOF s = false -> pos_at k - lam_at k > bound ->
  exists s', next OL bstep bound s = Ok (false, s') /\ atEOF s' = false.
Proof.
  intros (d & Hd & H) Hb Ha Hp. unfold next. rewrite (G_rdr _ _ _ _ _ _ _ _ _ H). cbn [atEOF set_inUse bpos dq]. rewrite Ha. cbn [negb].
  destruct (Z.ltb_spec (bpos s) 0); [|lia]. rewrite Hd.
  assert (RF : exists n, read_fuel (set_inUse s) = S n).
  { unfold read_fuel. cbn [rdr set_inUse]. rewrite (G_rdr _ _ _ _ _ _ _ _ _ H). eexists. rewrite Nat.add_comm. reflexivity. }
  destruct RF as [n ->]. cbn [readEnough set_inUse bpos pos lam]. destruct (Z.ltb_spec (bpos s) 0); [|lia].
  rewrite (G_pos _ _ _ _ _ _ _ _ _ H), (G_lam _ _ _ _ _ _ _ _ _ H). rewrite Z.gtb_ltb.
  destruct (Z.ltb_spec bound (pos_at k - lam_at k)); [|lia]. cbn [rbind]. eexists. split; [reflexivity|]. exact Ha.
Qed.

(* the break position at hand is not a break of the text, but a cut at position x *)
Definition stale (k c x : nat) (s : SL) : Prop :=
  GS k c s /\ (c < x)%nat /\ bpos s = Z.of_nat x - 1 - Z.of_nat c /\ Z.of_nat x <= Z.of_nat k - lam_at k /\
  forall p, (c <= p < x)%nat -> Tf p = false.

(* What is known after the search: the segment from c ends at e = c + S i. *)
Lemma bounded_ready b k c (s : SL) i : b <= MaxInt -> first_break c i -> at_ k c s -> kept None c s -> wf_rw (rbuf s) ->
  Z.of_nat c <= Z.of_nat k - lam_at k ->
  exists o s' k', exec OL bstep (CBounded b) s = Ok (o, s') /\ wf_rw (rbuf s') /\
    let e := (c + S i)%nat in
    (Z.of_nat e <= b -> o = Some (firstn (S i) (skipn c text), pens (c + i)) /\ kept None e s' /\
       (ready k' e s' \/ if atEOF s' then stale k' e (Z.to_nat b + 1) s' else stale k' e (Z.to_nat b) s')) /\
    (atEOF s' = false ->
      (b <= Z.of_nat c -> o = None) /\
      (Z.of_nat c < b < Z.of_nat e ->
         (o = None /\ err s' <> None) \/ exists p, o = Some (firstn (Z.to_nat b - c) (skipn c text), p)) /\
      (o = None -> ready k' c s' /\ (kept None c s' \/ (err s' <> None /\ kept (Some (init_limit (rbuf s))) c s'))) /\
      (Z.of_nat c < b < Z.of_nat e -> o <> None -> ready k' (Z.to_nat b) s' /\ kept None (Z.to_nat b) s')) /\
    (atEOF s' = true ->
      (b < Z.of_nat c -> o = Some ([], (0, 0)) /\ ready k' c s' /\ kept None c s') /\
      (Z.of_nat c <= b < Z.of_nat e -> (exists q, o = Some (firstn (Z.to_nat b + 1 - c) (skipn c text), q)) /\
         GS k' (Z.to_nat b + 1) s' /\ bpos s' = -1)).
Proof.
  intros Hb X [H Hp] W Wf Hs. destruct (GS_bounds bstep bs0 its f z0 k c s H) as [C1 C2]. unfold exec, bound_of.
  destruct (next_ok bstep bs0 its f z0 (b - 1) k c s H) as (ok & k' & s' & E & K & Lt & J & Rr).
  pose proof (lam_at_nonneg bstep bs0 its f k') as Ln. pose proof (first_text c i X) as Lx. pose proof b_N as NN.
  pose proof (eps_le k' ltac:(lia)) as Ep.
  assert (Pk : pos_at k' = Z.of_nat k' - eps k') by (rewrite b_pos by lia; unfold eps; lia).
  set (bp := brk bstep bs0 its f z0 k k' c (b - 1) s) in *.
  set (D := b - 1 - Z.of_nat c + eps k').
  assert (BP : (bp = -1 /\ ((k < k')%nat /\ D < 0 \/ (D < 0 \/ k = k' \/ Z.of_nat k' - lam_at k' < Z.of_nat c + D + 1) /\ Z.of_nat k' - lam_at k' <= Z.of_nat (c + i))) \/
    (bp = Z.of_nat i /\ Z.of_nat (c + i) < Z.of_nat k' - lam_at k' /\ (k' = k \/ Z.of_nat i <= D)) \/
    (bp = D /\ 0 <= D /\ Z.of_nat c + D + 1 <= Z.of_nat k' - lam_at k' /\ D < Z.of_nat i)).
  { unfold bp, brk. destruct (Nat.eqb_spec k' k) as [Ek|Ek].
    - rewrite Hp. rewrite <- Ek. destruct (F k' c) as [j|] eqn:Fj.
      + destruct (F_first k' c j ltac:(lia) ltac:(lia) Fj) as [Y L]. rewrite (first_unique c j i Y X) in *. auto 6.
      + left. split; [auto|]. right. split; [auto|].
        destruct (Z.le_gt_cases (Z.of_nat k' - lam_at k') (Z.of_nat (c + i))) as [L|L]; [auto|].
        rewrite (first_F k' c i ltac:(lia) ltac:(lia) X L) in Fj. discriminate.
    - destruct (find_cases k' c b ltac:(lia) ltac:(lia) Hb) as [(Y & [Z1|[Z1 Z2]])|[(j & Y & Z1 & Z2 & Z3)|(Y & Z1 & Z2 & Z3)]];
        rewrite Y; unfold D.
      + left. split; [auto|]. left. split; [lia|auto].
      + left. split; [auto|]. right. split; [auto|].
        destruct (Z.le_gt_cases (Z.of_nat k' - lam_at k') (Z.of_nat (c + i))) as [L|L]; [auto|].
        destruct X as (_ & X & _). rewrite Z1 in X by lia. discriminate.
      + right; left. rewrite (first_unique c j i Z1 X) in *. auto 6.
      + right; right. split; [auto|]. split; [auto|]. split; [auto|].
        destruct (Z.lt_ge_cases D (Z.of_nat i)) as [L|L]; [auto|].
        destruct X as (_ & X & _). rewrite Z3 in X by lia. discriminate. }
  rewrite E. cbn [rbind]. destruct ok.
  - cbn zeta in Rr. destruct Rr as (Rp & H1 & Rb & Lp & Bp & Er & Ra).
    set (fr := front its k' c bp (b - 1)) in *.
    assert (FR : fr = Z.min bp D).
    { unfold fr, front. rewrite Pk. rewrite Z.geb_leb. destruct (Z.leb_spec (b - 1) (Z.of_nat k' - eps k' - Z.of_nat (k' - c) + bp)); unfold D; lia. }
    destruct (GS_bounds bstep bs0 its f z0 _ _ _ H1) as [B1 B2].
    assert (Lf : (c + Z.to_nat (fr + 1) <= length text)%nat) by lia.
    destruct (deliver None k' c (Z.to_nat (fr + 1)) s s') as (D1 & Df & D2); auto; try lia.
    rewrite D2. cbn [rbind]. cbn [view]. eexists _, s', k'. split; [reflexivity|]. split; [exact Df|]. cbn zeta. split; [|split].
    + intros Le. assert (Eb : bp = Z.of_nat i) by (unfold D in *; lia). assert (Ef : fr = Z.of_nat i) by (unfold D in *; lia).
      rewrite Ef in *. replace (Z.to_nat (Z.of_nat i + 1)) with (S i) in * by lia.
      unfold Penalties. rewrite Lp, last_pens by lia. split; [reflexivity|]. split; [exact D1|].
      destruct (Z.ltb_spec (Z.of_nat i) 0); [lia|].
      assert (EA : if atEOF s' then k' = N /\ eps k' = 1 else (k' <= length text)%nat /\ eps k' = 0).
      { destruct (atEOF s') eqn:A.
        - destruct H1 as (d & _ & G1). pose proof (G_eof _ _ _ _ _ _ _ _ _ G1 A) as Kn. split; [exact Kn|]. subst k'. unfold eps. lia.
        - pose proof (neof_le _ _ _ H1 A) as Kl. split; [exact Kl|]. apply eps_in; auto. }
      destruct (find_cases k' (c + S i) b ltac:(lia) ltac:(lia) Hb) as [(Y & [Z1|[Z1 Z2]])|[(j & Y & Z1 & Z2 & Z3)|(Y & Z1 & Z2 & Z3)]].
      * left. split; [exact H1|]. right. split; [congruence|]. destruct (atEOF s'); [lia|reflexivity].
      * left. split; [exact H1|]. destruct (atEOF s'); [left|right; split; [congruence|reflexivity]].
        rewrite Bp, Y. destruct (F k' (c + S i)) as [j|] eqn:Fj; [|reflexivity].
        destruct (F_first k' (c + S i) j ltac:(lia) ltac:(lia) Fj) as [Q1 Q2]. destruct Q1 as (_ & Q1 & _). rewrite Z1 in Q1 by lia. discriminate.
      * left. split; [exact H1|]. left. rewrite Bp, Y. rewrite (first_F k' (c + S i) j) by (auto; lia). reflexivity.
      * right. destruct (atEOF s'); destruct EA as [E1 E2]; (split; [exact H1|]; split; [lia|]; split; [lia|]; split; [lia|intros; apply Z3; lia]).
    + intros A. specialize (Ra A). pose proof (neof_le _ _ _ H1 A) as Kl. pose proof (eps_in k' Kl) as E0. unfold D in *.
      split; [lia|]. split.
      * intros Hc. right. eexists. replace (Z.to_nat (fr + 1)) with (Z.to_nat b - c)%nat by lia. reflexivity.
      * split; [discriminate|].
        intros Hc _. assert (Cb : (c + Z.to_nat (fr + 1))%nat = Z.to_nat b) by lia. rewrite Cb in *.
        split; [|exact D1]. split; [exact H1|]. right. split; [|exact A]. rewrite Bp. destruct (Z.ltb_spec fr 0); [lia|].
        destruct (find_cases k' (Z.to_nat b) b ltac:(lia) ltac:(lia) Hb) as [(Y & _)|[(j & Y & _ & _ & Z3)|(Y & Z1 & _)]]; [exact Y|lia|lia].
    + intros A. assert (Kn : k' = N) by (destruct H1 as (d & _ & G1); exact (G_eof _ _ _ _ _ _ _ _ _ G1 A)).
      assert (E1 : eps k' = 1) by (subst k'; unfold eps; lia). unfold D in *. split.
      * intros Hc. assert (Lfr : fr < 0) by lia. replace (Z.to_nat (fr + 1)) with 0%nat in * by lia. cbn [firstn] in Lp. rewrite Nat.add_0_r in *.
        unfold Penalties. rewrite Lp. split; [reflexivity|]. split; [|exact D1]. split; [exact H1|]. left. rewrite Bp.
        destruct (Z.ltb_spec fr 0); [|lia]. assert (Eb : bp = Z.of_nat i) by lia. rewrite Eb. rewrite (first_F k' c i) by (auto; lia). reflexivity.
      * intros Hc. assert (Ef : fr = b - Z.of_nat c) by lia. assert (Cb : (c + Z.to_nat (fr + 1))%nat = (Z.to_nat b + 1)%nat) by lia. rewrite Cb in *.
        split; [eexists; replace (Z.to_nat (fr + 1)) with (Z.to_nat b + 1 - c)%nat by lia; reflexivity|]. split; [exact H1|].
        rewrite Bp. destruct (Z.ltb_spec fr 0); [lia|].
        destruct (find_cases k' (Z.to_nat b + 1) b ltac:(lia) ltac:(lia) Hb) as [(Y & _)|[(j & Y & _ & _ & Z3)|(Y & Z1 & _)]]; [exact Y|lia|lia].
  - destruct Rr as (H1 & Lp & Bp & Rr). exists None, s', k'. split; [reflexivity|].
    assert (Rw : rbuf s' = rbuf s \/ rbuf s' = Reset (rbuf s) None) by (destruct Rr as [(Y & _)|[(Y & _)|[(Y & _)|(Y & _)]]]; auto).
    split; [destruct Rw as [->| ->]; auto using wf_reset|]. cbn zeta.
    split; [|split].
    + intros Le. exfalso. destruct Rr as [(_ & _ & Y & _)|[(_ & _ & Y & Kn & _)|[(_ & Y & _ & Y2)|(_ & _ & _ & Y & _)]]]; [lia| | |congruence].
      * pose proof (reach_last (c + i) (proj1 X)). subst k'. unfold D in *. lia.
      * unfold D in *. lia.
    + intros A. pose proof (neof_le _ _ _ H1 A) as Kl. pose proof (eps_in k' Kl) as E0. unfold D in *.
      assert (Rd : ready k' c s').
      { split; [exact H1|]. destruct (Nat.eq_dec k' k) as [Ek|Ek].
        - left. rewrite Bp. unfold bp, brk. rewrite Ek, Nat.eqb_refl. exact Hp.
        - right. split; [|exact A]. destruct Rr as [(_ & _ & Y & _)|[(_ & _ & Y & _)|[(_ & Y & _)|(_ & Y & _)]]]; lia. }
      assert (Ee : upd_err ErrBoundReached (err s) <> None) by (destruct (err s) as [[]|]; cbn; discriminate).
      destruct Rr as [(Y1 & _ & Y & _)|[(_ & _ & _ & _ & Y)|[(Y1 & _ & Y & Y2)|(_ & _ & _ & Y & _)]]]; [|congruence| |congruence].
      * split; [auto|]. split; [lia|]. split; [|congruence]. intros _. split; [exact Rd|]. left. rewrite Y1. exact W.
      * split; [auto|]. split; [intros _; left; split; [auto|congruence]|]. split; [|congruence]. intros _. split; [exact Rd|].
        right. split; [congruence|]. rewrite Y1. exact (reset_copying _ Wf).
    + intros A. assert (Kn : k' = N) by (destruct H1 as (d & _ & G1); exact (G_eof _ _ _ _ _ _ _ _ _ G1 A)).
      assert (E1 : eps k' = 1) by (subst k'; unfold eps; lia). pose proof (reach_last (c + i) (proj1 X)) as Rl. rewrite <- Kn in Rl. unfold D in *.
      assert (Bc : b < Z.of_nat c).
      { destruct Rr as [(_ & _ & Y & _)|[(_ & _ & Y & _)|[(_ & Y & _)|(_ & _ & _ & Y & _)]]]; [lia|lia|lia|congruence]. }
      exfalso. destruct (atEOF s) eqn:A0.
      * assert (Kk : k = N) by (destruct H as (d & _ & G1); exact (G_eof _ _ _ _ _ _ _ _ _ G1 A0)).
        destruct Rr as [(_ & _ & _ & Y)|[(_ & _ & Y & _)|[(_ & Y & _)|(_ & _ & _ & Y & _)]]]; [congruence| | |congruence]; lia.
      * pose proof (neof_le _ _ _ H A0) as Kl. destruct (Z.lt_ge_cases (bpos s) 0) as [Nb|Nb]; [|assert (k < k')%nat by lia; lia].
        assert (Pk0 : pos_at k = Z.of_nat k) by (rewrite b_pos by lia; lia).
        destruct (next_stops (b - 1) k c s H Nb A0 ltac:(lia)) as (s0 & E0 & A00). congruence.
Qed.

(* ---- after the search ---- *)
Lemma exec_stale k c x (s : SL) : stale k c x s -> kept None c s -> wf_rw (rbuf s) ->
  if (x <=? length text)%nat
  then exists q s', exec OL bstep CNext s = Ok (Some (firstn (x - c) (skipn c text), q), s') /\ ready k x s' /\ kept None x s' /\ wf_rw (rbuf s')
  else exec OL bstep CNext s = Panic.
Proof.
  intros (H & Hc & Hb & Hx & Hn) W Wf. destruct (GS_bounds bstep bs0 its f z0 k c s H) as [C1 C2]. unfold exec, bound_of.
  pose proof (lam_at_nonneg bstep bs0 its f k) as Ln.
  destruct (next_ok bstep bs0 its f z0 MaxInt k c s H) as (ok & k' & s' & E & K & Lt & J & Rr).
  assert (k' = k) as -> by (destruct (Nat.eq_dec k' k); [auto|specialize (Lt ltac:(lia)); lia]).
  assert (BK : brk bstep bs0 its f z0 k k c MaxInt s = Z.of_nat x - 1 - Z.of_nat c) by (unfold brk; now rewrite Nat.eqb_refl).
  rewrite BK in Rr. pose proof (pos_le its b_sizes k) as P. pose proof b_total as Tt. rewrite E. cbn [rbind]. destruct ok.
  - cbn zeta in Rr. destruct Rr as (_ & H1 & Rb & Lp & Bp & _).
    assert (FM : front its k c (Z.of_nat x - 1 - Z.of_nat c) MaxInt = Z.of_nat x - 1 - Z.of_nat c).
    { unfold front. rewrite Z.geb_leb. destruct (Z.leb_spec MaxInt (pos_at k - Z.of_nat (k - c) + (Z.of_nat x - 1 - Z.of_nat c))); auto. lia. }
    rewrite FM in *. replace (Z.to_nat (Z.of_nat x - 1 - Z.of_nat c + 1)) with (x - c)%nat in * by lia.
    destruct (Nat.leb_spec x (length text)) as [Lx|Lx].
    + destruct (deliver None k c (x - c) s s') as (D1 & Df & D2); auto; try lia.
      rewrite D2. cbn [rbind view]. replace (c + (x - c))%nat with x in * by lia. eexists _, s'. split; [reflexivity|].
      split; [|auto]. split; [exact H1|]. left. destruct (Z.ltb_spec (Z.of_nat x - 1 - Z.of_nat c) 0); [lia|]. rewrite Bp.
      apply find_at_max; auto using b_sizes, b_total; lia.
    + destruct W as [W1 W2]. rewrite seg_runes in Rb by lia. set (l := firstn (x - c) (skipn c irunes)) in *.
      assert (Ll : length l = (x - c)%nat) by (unfold l; rewrite firstn_length, skipn_length, (irunes_len its f); lia).
      assert (Mb : backing (SetMark (rbuf s)) = Some text /\ rstart (SetMark (rbuf s)) = Z.of_nat c /\ rend (SetMark (rbuf s)) = Z.of_nat c).
      { unfold SetMark. rewrite W1. cbn. auto. }
      destruct Mb as (M1 & M2 & M3). destruct (writes_backed text l _ M1) as (V1 & V2 & V3). rewrite <- Rb in V1, V2, V3.
      unfold Text, Runes. rewrite V1, V2, V3, M2, M3. unfold zlen. rewrite Ll. unfold zslice, zlen.
      destruct (Z.leb_spec (Z.of_nat c + Z.of_nat (x - c)) (Z.of_nat (length text))); [lia|]. rewrite andb_false_r. reflexivity.
  - exfalso. destruct Rr as (_ & _ & _ & [(_ & _ & X & _)|[(_ & _ & X & _)|[(_ & X & _)|(_ & X & _)]]]); lia.
Qed.

Lemma loop_stale m k c x (s : SL) : stale k c x s -> kept None c s -> wf_rw (rbuf s) -> (length text - c < m)%nat ->
  if (x <=? length text)%nat
  then exists q s', loop OL bstep m s = Ok ((firstn (x - c) (skipn c text), q) :: pieces x, true, s')
  else loop OL bstep m s = Panic.
Proof.
  intros H W Wf Hm. pose proof (exec_stale k c x s H W Wf) as X. destruct H as (_ & Hc & _). destruct m as [|m]; [lia|]. cbn [loop].
  destruct (Nat.leb_spec x (length text)) as [Lx|Lx].
  - destruct X as (q & s1 & E & R1 & W1 & Wf1). rewrite E. cbn [rbind].
    destruct (loop_ready None m k x s1 R1 W1 Wf1 ltac:(lia)) as (s2 & E2). rewrite E2. cbn [rbind]. exists q, s2. do 4 f_equal.
    rewrite <- (map_id (pieces x)) at 2. apply map_ext. intros []. reflexivity.
  - now rewrite X.
Qed.

(* at the end of the text without a break at hand nothing more is delivered *)
Lemma run_over : forall cs k c (s : SL), GS k c s -> bpos s = -1 -> atEOF s = true -> exists s', run OL bstep cs s = Ok (map (fun _ => None) cs, s').
Proof.
  induction cs as [|cl cs IH]; intros k c s (d & Hd & H) Hb A; [eexists; reflexivity|]. cbn [run map].
  unfold exec, next. rewrite (G_rdr _ _ _ _ _ _ _ _ _ H).
  cbn [atEOF set_inUse]. rewrite A. cbn [negb bpos set_inUse]. rewrite Hb. change (-1 <? 0) with true. cbn [rbind].
  match goal with |- context [run _ _ cs ?t] => destruct (IH k c t) as (s' & E') end.
  - exists d. split; [exact Hd|]. eapply G_same; eauto.
  - exact Hb.
  - exact A.
  - rewrite E'. cbn [rbind]. eauto.
Qed.
End Bound.

(* ---- whole sessions ---- *)
Section Session.
Context {B : Type} (bstep : B -> Z -> B * Z * list Z).
Notation SD := (state (@Deque.deque atom) B).

Lemma history_snoc (o : op) : forall os (z s s1 : SD),
  history deque_ops bstep os z = Ok s -> apply_op deque_ops bstep o s = Ok s1 -> history deque_ops bstep (os ++ [o]) z = Ok s1.
Proof.
  induction os as [|a os IH]; intros z s s1 H E; cbn [history app] in *.
  - injection H as ->. rewrite E. reflexivity.
  - destruct (apply_op deque_ops bstep a z) as [z1| |]; [|discriminate|discriminate]. cbn [rbind] in *. exact (IH z1 s s1 H E).
Qed.

Lemma bounded_session os bs (s : SD) text n b piece p :
  Forall op_ok os -> history deque_ops bstep os (NewSegmenter bs) = Ok s -> zlen text < MaxInt -> b <= MaxInt ->
  obeys (matrix bstep (brks s) (text ++ [0])) -> eot_safe (matrix bstep (brks s) (text ++ [0])) ->
  let pieces := spec_of bstep (boz s) (brks s) text in
  let c := zlen (concat (map fst (firstn n pieces))) in
  let e := c + zlen piece in
  nth_error pieces n = Some (piece, p) ->
  exists s1 s2 o s3, InitFromSlice deque_ops text s = Ok s1 /\
    run deque_ops bstep (repeat CNext n) s1 = Ok (map Some (firstn n pieces), s2) /\
    exec deque_ops bstep (CBounded b) s2 = Ok (o, s3) /\
    let later m r := exists s4, loop deque_ops bstep m s3 = Ok (r, true, s4) in
    (e <= b -> o = Some (piece, p) /\ forall m, (length text < m)%nat ->
       let x := if atEOF s3 then b + 1 else b in
       later m (skipn (S n) pieces) \/
       (e < x /\ if x <=? zlen text
                 then exists q, later m ((firstn (Z.to_nat (x - e)) (skipn (Z.to_nat e) text), q) :: behind (x - e) (skipn (S n) pieces))
                 else loop deque_ops bstep m s3 = Panic)) /\
    (b < e -> atEOF s3 = false ->
       (b <= c -> o = None) /\
       (c < b -> (o = None /\ err s3 <> None) \/ exists q, o = Some (firstn (Z.to_nat (b - c)) piece, q)) /\
       forall m, (length text < m)%nat ->
         (o = None -> later m (skipn n pieces) \/
            (err s3 <> None /\ later m (map (fun x => (firstn (Z.to_nat (init_limit (rbuf s2))) (fst x), snd x)) (skipn n pieces)))) /\
         (o <> None -> later m (behind (b - c) (skipn n pieces)))) /\
    (b < e -> atEOF s3 = true ->
       (b < c -> o = Some ([], (0, 0)) /\ forall m, (length text < m)%nat -> later m (skipn n pieces)) /\
       (c <= b -> (exists q, o = Some (firstn (Z.to_nat (b + 1 - c)) piece, q)) /\
          forall cs, exists s4, run deque_ops bstep cs s3 = Ok (map (fun _ => None) cs, s4))).
Proof.
  intros Ho H Tt Hb Ob Es pieces c e Hn. destruct (hist_state bstep os bs s Ho H) as (t & S & Hi).
  destruct (slice_start bstep s t text S Hi) as (s1 & t1 & I & S1 & A & C & Er).
  assert (Wf : wf_rw (rbuf t1)).
  { destruct (hist_state bstep (os ++ [OSlice text]) bs s1) as (t' & S' & [W _]).
    - apply Forall_app. split; [auto|]. repeat constructor.
    - apply (history_snoc (OSlice text) os _ s); auto.
    - destruct (ssim_fields s1 t1 S1) as (_ & _ & X & _). destruct (ssim_fields s1 t' S') as (_ & _ & Y & _). congruence. }
  rewrite <- (ones_fst text) in Ob, Es. rewrite <- (irunes_EOF (ones text)) in Ob, Es. fold (mat bstep (brks s) (ones text) EOF) in Ob, Es.
  assert (SP : pieces = cut (test0 (brks s) (boz s)) (rest bstep (brks s) (ones text) EOF 0) []).
  { unfold pieces. rewrite spec_impl. cbv zeta. rewrite <- (ones_fst text) at 1 2 3. rewrite <- (irunes_EOF (ones text)). reflexivity. }
  assert (VI : forall l : list (list Z * (Z * Z)), map (fun x => (view None (fst x), snd x)) l = l).
  { intros l. rewrite <- (map_id l) at 2. apply map_ext. intros []. reflexivity. }
  assert (Ln : (n < length pieces)%nat) by (apply nth_error_Some; congruence).
  destruct (run_ready bstep (brks s) text (boz s) Tt Ob Es None n 0 0 t1 A C Wf) as (k & t2 & E2 & A2 & C2 & Wf2 & Hs2 & Sk).
  { cbn. lia. }
  { rewrite <- SP. lia. }
  rewrite <- SP in *. rewrite VI in E2. cbn [Nat.add] in *.
  set (c' := length (concat (map fst (firstn n pieces)))) in *.
  assert (Cc : c = Z.of_nat c') by reflexivity.
  assert (Sn : skipn n pieces = (piece, p) :: skipn (Datatypes.S n) pieces).
  { clear - Hn. revert n Hn. generalize pieces. induction pieces0 as [|x l IH]; intros [|n] Hn; try discriminate.
    - cbn in *. congruence.
    - exact (IH n Hn). }
  pose proof Sk as Sk1. rewrite Sn in Sk1. symmetry in Sk1.
  destruct (cut_inv bstep (brks s) text (boz s) Es c' _ _ Sk1) as (i & Fb & Ep & Et).
  pose proof (f_equal fst Ep : piece = firstn (Datatypes.S i) (skipn c' text)) as Ep1. pose proof (f_equal snd Ep : p = _) as Ep2. cbn [snd] in Ep2. clear Ep.
  pose proof (first_text bstep (brks s) text (boz s) Es c' i Fb) as Lx.
  assert (Lp : length piece = Datatypes.S i) by (rewrite Ep1, firstn_length, skipn_length; lia).
  assert (Ee : e = Z.of_nat (c' + Datatypes.S i)) by (unfold e, zlen; rewrite Cc, Lp; lia).
  destruct (bounded_ready bstep (brks s) text (boz s) Ob Es b k c' t2 i Hb Fb A2 C2 Wf2 Hs2) as (o & t3 & k' & E3 & Wf3 & P1 & P2 & P3).
  cbn zeta in P1, P2, P3.
  destruct (run_transfer bstep _ s1 t1 _ S1 E2) as (s2 & R2 & S2). cbn [fst snd] in *.
  destruct (exec_transfer bstep _ s2 t2 _ _ S2 E3) as (s3 & R3 & S3).
  destruct (ssim_fields s3 t3 S3) as (_ & _ & _ & X4 & X5 & _). destruct (ssim_fields s2 t2 S2) as (_ & _ & X6 & _).
  exists s1, s2, o, s3. split; [exact I|]. split; [exact R2|]. split; [exact R3|]. cbn zeta. rewrite Ee, X5, X4, X6, Cc.
  assert (LATER : forall m l c0, (exists t4, loop list_ops bstep m t3 = Ok (map (fun x => (view None (fst x), snd x)) l, true, t4)) -> l = c0 ->
    exists s4, loop deque_ops bstep m s3 = Ok (c0, true, s4)).
  { intros m l c0 (t4 & L4) <-. rewrite VI in L4. destruct (loop_transfer bstep m s3 t3 _ S3 L4) as (s4 & R4 & _). exists s4. exact R4. }
  split; [|split].
  - intros L. destruct (P1 L) as (O & Kp & St). split; [rewrite O, Ep1, Ep2; reflexivity|]. intros m Hm. rewrite Et.
    destruct St as [Rd|St].
    + left. apply (LATER m (cut (test0 (brks s) (boz s)) (rest bstep (brks s) (ones text) EOF (c' + Datatypes.S i)) [])); [|reflexivity].
      exact (loop_ready bstep (brks s) text (boz s) Tt Ob Es None m k' _ t3 Rd Kp Wf3 ltac:(lia)).
    + right.
      assert (St2 : exists x, Z.of_nat x = (if atEOF t3 then b + 1 else b) /\ stale bstep (brks s) text (boz s) k' (c' + Datatypes.S i) x t3).
      { destruct (atEOF t3); [exists (Z.to_nat b + 1)%nat|exists (Z.to_nat b)]; (split; [lia|exact St]). }
      destruct St2 as (x & Ex & Sx). rewrite <- Ex. pose proof Sx as (_ & Hx & _ & _ & Hn0). split; [lia|].
      pose proof (loop_stale bstep (brks s) text (boz s) Tt Ob Es m k' _ x t3 Sx Kp Wf3 ltac:(lia)) as LS. unfold zlen.
      destruct (Nat.leb_spec x (length text)) as [Lt|Lt], (Z.leb_spec (Z.of_nat x) (Z.of_nat (length text))); try lia.
      * destruct LS as (q & t4 & L4). exists q. destruct (loop_transfer bstep m s3 t3 _ S3 L4) as (s4 & R4 & _). exists s4. rewrite R4. cbn [fst].
        rewrite (cut_behind bstep (brks s) text (boz s) Es (c' + Datatypes.S i) x ltac:(lia) Hn0).
        replace (Z.to_nat (Z.of_nat x - Z.of_nat (c' + Datatypes.S i))) with (x - (c' + Datatypes.S i))%nat by lia. now rewrite Nat2Z.id.
      * pose proof (sim_loop bstep m s3 t3 S3) as RL. rewrite LS in RL. destruct (loop deque_ops bstep m s3); cbn in RL; try contradiction. reflexivity.
  - intros L A3. destruct (P2 A3) as (Q1 & Q2 & Q3 & Q4). split; [exact Q1|]. split.
    { intros L2. destruct (Q2 (conj L2 L)) as [Q|[q Q]]; [auto|right]. exists q. rewrite Q. do 2 f_equal. rewrite Ep1, firstn_firstn. f_equal. lia. }
    intros m Hm. split.
    + intros On. destruct (Q3 On) as (Rd & [K|[K1 K2]]).
      * left. apply (LATER m (cut (test0 (brks s) (boz s)) (rest bstep (brks s) (ones text) EOF c') [])); [|congruence].
        exact (loop_ready bstep (brks s) text (boz s) Tt Ob Es None m k' _ t3 Rd K Wf3 ltac:(lia)).
      * right. split; [exact K1|].
        destruct (loop_ready bstep (brks s) text (boz s) Tt Ob Es _ m k' c' t3 Rd K2 Wf3 ltac:(lia)) as (t4 & L4). rewrite <- Sk in L4.
        destruct (loop_transfer bstep m s3 t3 _ S3 L4) as (s4 & R4 & _). exists s4. exact R4.
    + intros On. assert (Cb : Z.of_nat c' < b) by (destruct (Z.le_gt_cases b (Z.of_nat c')) as [Y|Y]; [exfalso; auto|lia]).
      destruct (Q4 (conj Cb L) On) as (Rd & K).
      apply (LATER m (cut (test0 (brks s) (boz s)) (rest bstep (brks s) (ones text) EOF (Z.to_nat b)) [])).
      * exact (loop_ready bstep (brks s) text (boz s) Tt Ob Es None m k' _ t3 Rd K Wf3 ltac:(lia)).
      * rewrite (cut_behind bstep (brks s) text (boz s) Es c' (Z.to_nat b)), <- Sk; [f_equal; lia|lia|].
        intros q Hq. apply (proj2 (proj2 Fb)). lia.
  - intros L A3. destruct (P3 A3) as (Q1 & Q2). split.
    + intros L2. destruct (Q1 L2) as (O & Rd & K). split; [exact O|]. intros m Hm.
      apply (LATER m (cut (test0 (brks s) (boz s)) (rest bstep (brks s) (ones text) EOF c') [])); [|congruence].
      exact (loop_ready bstep (brks s) text (boz s) Tt Ob Es None m k' _ t3 Rd K Wf3 ltac:(lia)).
    + intros L2. destruct (Q2 (conj L2 L)) as ((q & O) & G3 & B3). split.
      * exists q. rewrite O. do 2 f_equal. rewrite Ep1, firstn_firstn. f_equal. lia.
      * intros cs. destruct (run_over bstep (brks s) text (boz s) cs k' _ t3 G3 B3 A3) as (t4 & E4).
        destruct (run_transfer bstep _ s3 t3 _ S3 E4) as (s4 & R4 & _). exists s4. exact R4.
Qed.
End Session.
