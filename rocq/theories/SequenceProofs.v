(* SequenceProofs.v -- the handlers of the scanner are the isolating run sequences. *)
From Coq Require Import List ZArith Lia Bool Sorted.
From Verif Require Import SplitProofs Base Scrap Brackets Bd16Spec BracketProofs Scanner ScannerProofs ResolverText Resolver ResolverFlat Uax9Text NestedText BracketText SequenceSpec.
Import ListNotations.
Open Scope Z_scope.

(* ---- the walk along the chain ---- *)
Definition covers (h : hrec) (pos : Z) : bool := (h_first h <=? pos) && ((h_last h =? 0) || (pos <=? h_last h)).
Definition covers_at (hs : list hrec) (pos : Z) (j : nat) : bool := match nth_error hs j with Some h => covers h pos | None => false end.
Definition chained (hs : list hrec) (n : nat) : Prop :=
  length hs = S n /\ forall k h, nth_error hs k = Some h -> h_next h = if (k <? n)%nat then Some (S k) else None.

Lemma walk_fold hs n pos : chained hs n -> forall m i best fuel, (i + m = n)%nat -> (m < fuel)%nat ->
  bd16_walk hs fuel pos i best = Some (fold_left (fun b j => if covers_at hs pos j then j else b) (seq i m) best).
Proof.
  intros [L C]. induction m as [|m IH]; intros i best fuel E F; (destruct fuel as [|fuel]; [lia|]); cbn [bd16_walk].
  - destruct (nth_error hs i) as [h|] eqn:EH; [|apply nth_error_None in EH; lia]. cbn [obind]. rewrite (C _ _ EH).
    destruct (Nat.ltb_spec i n); [lia|]. reflexivity.
  - destruct (nth_error hs i) as [h|] eqn:EH; [|apply nth_error_None in EH; lia]. cbn [obind]. rewrite (C _ _ EH).
    destruct (Nat.ltb_spec i n); [|lia]. rewrite IH by lia. cbn [seq fold_left].
    assert (E1 : covers_at hs pos i = covers h pos) by (unfold covers_at; rewrite EH; reflexivity). rewrite E1. reflexivity.
Qed.

Lemma fold_last (f : nat -> bool) : forall m, let r := fold_left (fun b j => if f j then j else b) (seq 0 m) 0%nat in
  (r = 0%nat \/ (r < m)%nat /\ f r = true) /\ forall j, (j < m)%nat -> f j = true -> (j <= r)%nat.
Proof.
  induction m as [|m IH]; [cbn; split; [auto|intros; lia]|]. rewrite seq_S, fold_left_app. cbn [fold_left Nat.add].
  set (r := fold_left _ (seq 0 m) 0%nat) in *. cbv zeta in IH. destruct IH as [A B]. destruct (f m) eqn:E; cbv zeta.
  - split; [right; split; [lia|exact E]|]. intros j J _. lia.
  - split; [destruct A as [A|[A1 A2]]; [auto|right; split; [lia|exact A2]]|]. intros j J F.
    destruct (Nat.eq_dec j m) as [->|N]; [congruence|]. apply B; auto. lia.
Qed.

Definition desc (l : list nat) : Prop := StronglySorted (fun a b => (b < a)%nat) l.
Lemma fold_desc (f : nat -> bool) n ks : desc (ks ++ [0%nat]) -> Forall (fun k => (k <= n)%nat) ks -> (forall k, (k <= n)%nat -> (f k = true <-> In k (ks ++ [0%nat]))) ->
  fold_left (fun b j => if f j then j else b) (seq 0 n) 0%nat = if (hd 0 ks <? n)%nat then hd 0%nat ks else hd 0%nat (tl ks).
Proof.
  intros D B F. destruct (fold_last f n) as [A G]. set (r := fold_left _ _ _) in *.
  assert (T : forall k t, (k < n)%nat -> desc (k :: t) -> (forall j, (j < n)%nat -> f j = true <-> In j (k :: t)) -> r = k).
  { intros k t LT S FF. assert (k <= r)%nat by (apply G; [exact LT|]; apply FF; [exact LT|left; reflexivity]).
    destruct A as [A|[A1 A2]]; [lia|]. apply FF in A2; [|exact A1]. destruct A2 as [A2|A2]; [auto|]. inversion S as [|? ? _ S2]; subst. rewrite Forall_forall in S2. specialize (S2 _ A2). lia. }
  destruct ks as [|k t]; cbn [hd tl app] in *.
  - destruct (Nat.ltb_spec 0 n); [|destruct A as [A|[A _]]; lia]. apply (T 0%nat []); auto. intros j J. apply F. lia.
  - inversion D as [|? ? D1 D2]; subst. destruct (Nat.ltb_spec k n) as [LT|GE].
    + apply (T k (t ++ [0%nat])); auto. intros j J. apply F. lia.
    + assert (k = n) by (apply Forall_inv in B; lia). subst k. apply Forall_inv_tail in B.
      assert (D0 : (0 < n)%nat) by (rewrite Forall_forall in D2; apply D2; apply in_or_app; right; left; reflexivity).
      assert (FF : forall j, (j < n)%nat -> f j = true <-> In j (t ++ [0%nat])).
      { intros j J. rewrite F by lia. split; [intros [X|X]; [lia|exact X]|right; auto]. }
      destruct t as [|k' t]; cbn [app hd] in *; [apply (T 0%nat [] D0 D1 FF)|]. apply (T k' (t ++ [0%nat])); auto. inversion D2; auto.
Qed.

(* ---- what the scanner does with initiators, PDIs and brackets ---- *)
Definition solo (s : scrap) : bool := isbracket s || isisolate s.
Notation ev := (Z * scrap)%type.
Definition on_event (st : scst) (e : ev) : option scst :=
  if isisolate (snd e) then handleIsolatingRunSwitch st (snd e) else prepareRuleBD16 st (fst e) (snd e).

(* The number of isolates so far, those that are open (innermost first) with their positions and numbers,
   the brackets with the isolates they are in, and the position of the last initiator. *)
Record abs := mkabs { a_n : nat; a_open : list (Z * nat); a_tags : list (list (Z * nat) * ev); a_last : Z }.
Definition a_step (a : abs) (e : ev) : abs :=
  if clz (snd e) =? cPDI then mkabs (a_n a) (tl (a_open a)) (a_tags a) (a_last a)
  else if isisolate (snd e) then mkabs (S (a_n a)) ((sl (snd e), S (a_n a)) :: a_open a) (a_tags a) (sl (snd e))
  else mkabs (a_n a) (a_open a) (a_tags a ++ [(a_open a, e)]) (a_last a).
Definition owner (o : list (Z * nat)) : nat := hd 0%nat (map snd o).
Lemma owner_in o m : owner o = S m -> In (S m) (map snd o).
Proof. unfold owner. destruct o as [|x o]; cbn; [discriminate|auto]. Qed.
Definition owned (k : nat) (tags : list (list (Z * nat) * ev)) : list ev := map snd (filter (fun t => (owner (fst t) =? k)%nat) tags).

Record Inv (q : Z) (a : abs) (st : scst) : Prop := {
  I_chain : chained (s_hs st) (a_n a);
  I_zero : irs_find (s_irs st) 0 = Some 0%nat;
  I_irs : Forall (fun x => irs_find (s_irs st) (fst x) = Some (snd x)) (a_open a);
  I_stack : s_stack st = 0 :: rev (map fst (a_open a));
  I_bd : s_bd st = owner (a_open a);
  I_top : forall h, nth_error (s_hs st) 0 = Some h -> h_first h = 0 /\ h_last h = 0;
  I_desc : desc (map snd (a_open a) ++ [0%nat]);
  I_open : Forall (fun x => 0 < fst x < q /\ (snd x <= a_n a)%nat /\ forall h, nth_error (s_hs st) (snd x) = Some h -> h_last h = 0) (a_open a);
  I_closed : forall k h, nth_error (s_hs st) k = Some h -> (0 < k)%nat -> ~ In k (map snd (a_open a)) -> 0 < h_last h < q;
  I_tags : Forall (fun t => 0 <= sl (snd (snd t)) < q /\ desc (map snd (fst t) ++ [0%nat]) /\ Forall (fun k => (k <= a_n a)%nat) (map snd (fst t)) /\
    forall k h, nth_error (s_hs st) k = Some h -> (covers h (sl (snd (snd t))) = true <-> In k (map snd (fst t) ++ [0%nat]))) (a_tags a);
  I_bds : forall k h, nth_error (s_hs st) k = Some h -> h_bd h = bd16_run new_handler (owned k (a_tags a));
  I_first : forall j k hj hk, (j < k)%nat -> nth_error (s_hs st) j = Some hj -> nth_error (s_hs st) k = Some hk -> h_first hj < h_first hk;
  I_bound : forall k h, nth_error (s_hs st) k = Some h -> 0 <= h_first h /\ (h_first h = 0 \/ h_first h < q);
  I_pos : Forall (fun o => Forall (fun x => forall h, nth_error (s_hs st) (snd x) = Some h -> h_first h = fst x) o) (a_open a :: map fst (a_tags a));
  I_last : forall h, nth_error (s_hs st) (a_n a) = Some h -> h_first h = a_last a }.

Lemma Inv_same q a st st' : same_h st st' -> Inv q a st -> Inv q a st'.
Proof.
  intros (A & B & C & D) [J1 J2 J3 J4 J5 J6 J7 J8 J9 J10 J11 J12 J13 J14 J15].
  constructor; rewrite <- ?A, <- ?B, <- ?C, <- ?D; auto.
Qed.

Lemma Inv_mono q q' a st : q <= q' -> Inv q a st -> Inv q' a st.
Proof.
  intros LE [J1 J2 J3 J4 J5 J6 J7 J8 J9 J10 J11 J12 J13 J14 J15]. constructor; auto.
  - eapply Forall_impl; [|exact J8]. cbn. intros x (X1 & X2 & X3). split; [lia|auto].
  - intros k h K1 K2 K3. specialize (J9 k h K1 K2 K3). lia.
  - eapply Forall_impl; [|exact J10]. cbn. intros x (X1 & X2). split; [lia|auto].
  - intros k h K. specialize (J13 k h K). lia.
Qed.

Lemma Inv_start input : Inv 0 (mkabs 0 [] [] 0) (newScanner input).
Proof.
  constructor; cbn; auto.
  - split; [reflexivity|]. intros [|k] h E; [injection E as <-; reflexivity|destruct k; discriminate].
  - intros h E. injection E as <-. auto.
  - constructor; constructor.
  - intros [|k] h E; [lia|destruct k; discriminate].
  - intros [|k] h E; [injection E as <-; reflexivity|destruct k; discriminate].
  - intros j [|k] hj hk LT _ E; [lia|destruct k; discriminate].
  - intros [|k] h E; [injection E as <-; cbn; lia|destruct k; discriminate].
  - intros h E. injection E as <-. reflexivity.
Qed.

Lemma nset_cases {A} (l : list A) n m a x : nth_error (nset l n a) m = Some x -> m = n /\ x = a /\ (n < length l)%nat \/ m <> n /\ nth_error l m = Some x.
Proof. rewrite nth_nset. destruct (Nat.eqb_spec n m) as [->|N]; [|auto]. destruct (Nat.ltb_spec m (length l)); [|discriminate]. intros E. injection E as <-. auto. Qed.

Lemma inv_bracket q a st r s : Inv q a st -> isbracket s = true -> isisolate s = false -> q <= sl s -> 0 <= sl s ->
  exists st', on_event st (r, s) = Some st' /\ Inv (sl s + 1) (a_step a (r, s)) st' /\
    s_rest st' = s_rest st /\ s_ctx st' = s_ctx st.
Proof.
  intros [J1 J2 J3 J4 J5 J6 J7 J8 J9 J10 J11 J12 J13 J14 J15] BR NI LE P0. unfold on_event, a_step. cbn [fst snd]. rewrite NI.
  assert (NP : (clz s =? cPDI) = false) by (unfold isisolate in NI; apply orb_false_iff in NI; tauto). rewrite NP.
  unfold prepareRuleBD16. rewrite BR. cbn [negb]. pose proof J1 as [L C].
  assert (BL : (s_bd st <= a_n a)%nat). { rewrite J5. unfold owner. destruct (a_open a) as [|x o]; cbn; [lia|]. apply Forall_inv in J8. lia. }
  destruct (nth_error (s_hs st) (s_bd st)) as [h|] eqn:EH; [|apply nth_error_None in EH; lia]. cbn [obind].
  eexists. split; [reflexivity|]. split; [|auto].
  assert (KEEP : forall k x, nth_error (nset (s_hs st) (s_bd st) (mkhr (bd16_step (h_bd h) (r, s)) (h_first h) (h_last h) (h_next h))) k = Some x ->
    exists y, nth_error (s_hs st) k = Some y /\ h_first x = h_first y /\ h_last x = h_last y /\ h_next x = h_next y /\
      h_bd x = if (k =? s_bd st)%nat then bd16_step (h_bd y) (r, s) else h_bd y).
  { intros k x K. destruct (nset_cases _ _ _ _ _ K) as [(-> & -> & _)|(N & E)].
    - exists h. rewrite Nat.eqb_refl. auto.
    - exists x. apply Nat.eqb_neq in N. rewrite N. auto. }
  constructor; cbn [s_hs s_irs s_stack s_bd a_n a_open a_tags a_last]; auto.
  - split; [rewrite nset_length; exact L|]. intros k x K. destruct (KEEP k x K) as (y & Y & _ & _ & E & _). rewrite E. auto.
  - intros x K. destruct (KEEP _ x K) as (y & Y & E1 & E2 & _). rewrite E1, E2. auto.
  - eapply Forall_impl; [|exact J8]. cbn. intros x (X1 & X2 & X3). split; [lia|]. split; [auto|]. intros z K. destruct (KEEP _ z K) as (y & Y & E1 & E2 & _). rewrite E2. auto.
  - intros k x K K1 K2. destruct (KEEP _ x K) as (y & Y & E1 & E2 & _). rewrite E2. specialize (J9 k y Y K1 K2). lia.
  - apply Forall_app. split.
    + eapply Forall_impl; [|exact J10]. cbn. intros t (X1 & X2 & X3 & X4). split; [lia|]. split; [auto|]. split; [auto|]. intros k x K. destruct (KEEP _ x K) as (y & Y & E1 & E2 & _).
      unfold covers. rewrite E1, E2. apply (X4 k y Y).
    + constructor; [|constructor]. cbn [fst snd]. split; [lia|]. split; [exact J7|]. split. { apply Forall_map. eapply Forall_impl; [|exact J8]. cbn. tauto. }
      intros k x K. destruct (KEEP _ x K) as (y & Y & E1 & E2 & _). unfold covers. rewrite E1, E2.
      destruct k as [|k].
      * destruct (J6 y Y) as [-> ->]. rewrite Z.eqb_refl. cbn [orb]. rewrite andb_true_r. split; [intros _; apply in_or_app; right; left; reflexivity|]. intros _. apply Z.leb_le. lia.
      * destruct (in_dec Nat.eq_dec (S k) (map snd (a_open a))) as [I|I].
        -- apply in_map_iff in I as ([z k'] & E & I). cbn in E. subst k'. rewrite Forall_forall in J8. destruct (J8 _ I) as (X1 & X2 & X3). cbn [fst snd] in *.
           rewrite (X3 _ Y). apply Forall_inv in J14. rewrite Forall_forall in J14. rewrite (J14 _ I y Y). cbn [fst].
           rewrite Z.eqb_refl. cbn [orb]. rewrite andb_true_r. split; [|intros _; apply Z.leb_le; lia].
           intros _. apply in_or_app. left. apply in_map_iff. exists (z, S k). auto.
        -- specialize (J9 (S k) y Y ltac:(lia) I). split.
           ++ intros X. apply andb_true_iff in X. destruct X as [_ X]. apply orb_true_iff in X. rewrite Z.eqb_eq, Z.leb_le in X. lia.
           ++ intros X. apply in_app_or in X. destruct X as [X|[X|[]]]; [contradiction|discriminate].
  - intros k x K. destruct (KEEP _ x K) as (y & Y & _ & _ & _ & ->). rewrite (J11 k y Y). unfold owned. rewrite filter_app, map_app. cbn [filter fst].
    rewrite J5, Nat.eqb_sym. destruct (_ =? _)%nat; [|rewrite app_nil_r; reflexivity]. unfold bd16_run. rewrite fold_left_app. reflexivity.
  - intros j k x y LT K1 K2. destruct (KEEP _ x K1) as (x' & X & -> & _), (KEEP _ y K2) as (y' & Y & -> & _). eauto.
  - intros k x K. destruct (KEEP _ x K) as (y & Y & -> & _). specialize (J13 k y Y). lia.
  - rewrite map_app. cbn [map fst]. rewrite app_comm_cons. apply Forall_app.
    assert (W : Forall (fun o => Forall (fun x => forall h0, nth_error (nset (s_hs st) (s_bd st) (mkhr (bd16_step (h_bd h) (r, s)) (h_first h) (h_last h) (h_next h))) (snd x) = Some h0 -> h_first h0 = fst x) o) (a_open a :: map fst (a_tags a))).
    { eapply Forall_impl; [|exact J14]. intros o O. eapply Forall_impl; [|exact O]. cbn. intros x X z K. destruct (KEEP _ z K) as (y & Y & -> & _). auto. }
    split; [exact W|]. constructor; [|constructor]. apply Forall_inv in W. exact W.
  - intros x K. destruct (KEEP _ x K) as (y & Y & -> & _). auto.
Qed.

Lemma inv_pdi q a st r s : Inv q a st -> clz s = cPDI -> a_open a <> [] -> q <= sl s ->
  exists st', on_event st (r, s) = Some st' /\ Inv (sl s + 1) (a_step a (r, s)) st' /\ s_rest st' = s_rest st /\ s_ctx st' = s_ctx st.
Proof.
  intros [J1 J2 J3 J4 J5 J6 J7 J8 J9 J10 J11 J12 J13 J14 J15] CP NE LE. unfold on_event, a_step. cbn [fst snd]. unfold isisolate. rewrite CP.
  change (is_isolate cPDI) with true. cbv beta iota. unfold handleIsolatingRunSwitch. rewrite CP, Z.eqb_refl. rewrite J4. pose proof J1 as [L C].
  destruct (a_open a) as [|[p k] o] eqn:EO; [congruence|]. unfold owner in J5. cbn [map snd hd] in J5. cbn [tl].
  pose proof (Forall_inv J8) as (PP & KN & KL). cbn [fst snd] in PP, KN, KL.
  destruct (nth_error (s_hs st) (s_bd st)) as [h|] eqn:EH; [|apply nth_error_None in EH; lia]. cbn [obind].
  assert (RL : removelast (0 :: rev (map fst ((p, k) :: o))) = 0 :: rev (map fst o)).
  { cbn [map rev fst]. rewrite app_comm_cons. apply removelast_last. }
  rewrite RL.
  assert (LS : irs_find (s_irs st) (last (0 :: rev (map fst o)) 0) = Some (owner o)).
  { destruct o as [|[p2 k2] o]; [exact J2|]. cbn [map rev fst]. rewrite app_comm_cons, last_last. unfold owner. cbn [map snd hd].
    pose proof (Forall_inv (Forall_inv_tail J3)) as X. exact X. }
  rewrite LS. cbn [obind]. eexists. split; [reflexivity|]. split; [|auto]. rewrite J5 in *.
  assert (K0 : (0 < k)%nat).
  { pose proof (StronglySorted_inv J7) as [_ X]. rewrite Forall_forall in X. apply X. apply in_or_app. right. left. reflexivity. }
  assert (KO : ~ In k (map snd o)).
  { pose proof (StronglySorted_inv J7) as [_ X]. rewrite Forall_forall in X. intros I. specialize (X k ltac:(apply in_or_app; left; exact I)). cbn [snd] in X. lia. }
  assert (KEEP : forall j x, nth_error (nset (s_hs st) k (mkhr (h_bd h) (h_first h) (sl s) (h_next h))) j = Some x ->
    exists y, nth_error (s_hs st) j = Some y /\ h_first x = h_first y /\ h_next x = h_next y /\ h_bd x = h_bd y /\ (h_last x = if (j =? k)%nat then sl s else h_last y)).
  { intros j x K. destruct (nset_cases _ _ _ _ _ K) as [(-> & -> & _)|(N & E)].
    - exists h. rewrite Nat.eqb_refl. auto.
    - exists x. apply Nat.eqb_neq in N. rewrite N. auto. }
  constructor; cbn [s_hs s_irs s_stack s_bd a_n a_open a_tags a_last]; auto.
  - split; [rewrite nset_length; exact L|]. intros j x K. destruct (KEEP j x K) as (y & Y & _ & E & _). rewrite E. auto.
  - apply Forall_inv_tail in J3. exact J3.
  - intros x K. destruct (KEEP _ x K) as (y & Y & -> & _ & _ & ->). destruct (Nat.eqb_spec 0 k); [lia|]. auto.
  - inversion J7; auto.
  - apply Forall_inv_tail in J8. apply Forall_forall. intros x I. rewrite Forall_forall in J8. destruct (J8 x I) as (X1 & X2 & X3). split; [lia|]. split; [auto|].
    intros z K. destruct (KEEP _ z K) as (y & Y & _ & _ & _ & ->). destruct (Nat.eqb_spec (snd x) k) as [E|_]; [|auto]. exfalso. apply KO. rewrite <- E. apply in_map. exact I.
  - intros j x K K1 K2. destruct (KEEP _ x K) as (y & Y & _ & _ & _ & ->). destruct (Nat.eqb_spec j k) as [->|N]; [lia|].
    specialize (J9 j y Y K1). cbn [map snd In] in J9. specialize (J9 ltac:(intros [X|X]; [congruence|contradiction])). lia.
  - eapply Forall_impl; [|exact J10]. cbn. intros t (X1 & X2 & X3 & X4). split; [lia|]. split; [auto|]. split; [auto|]. intros j x K. destruct (KEEP _ x K) as (y & Y & E1 & _ & _ & E2).
    rewrite <- (X4 j y Y). unfold covers. rewrite E1, E2. destruct (Nat.eqb_spec j k) as [->|N]; [|tauto]. rewrite (KL _ Y).
    replace (sl (snd (snd t)) <=? sl s) with true by (symmetry; apply Z.leb_le; lia). rewrite !orb_true_r. cbn. tauto.
  - intros j x K. destruct (KEEP _ x K) as (y & Y & _ & _ & -> & _). auto.
  - intros i j x y LT K1 K2. destruct (KEEP _ x K1) as (x' & X & -> & _), (KEEP _ y K2) as (y' & Y & -> & _). eauto.
  - intros j x K. destruct (KEEP _ x K) as (y & Y & -> & _). specialize (J13 j y Y). lia.
  - assert (W : Forall (fun o0 => Forall (fun x => forall h0, nth_error (nset (s_hs st) k (mkhr (h_bd h) (h_first h) (sl s) (h_next h))) (snd x) = Some h0 -> h_first h0 = fst x) o0) (((p, k) :: o) :: map fst (a_tags a))).
    { eapply Forall_impl; [|exact J14]. intros u O. eapply Forall_impl; [|exact O]. cbn. intros x X z K. destruct (KEEP _ z K) as (y & Y & -> & _). auto. }
    constructor; [|apply Forall_inv_tail in W; exact W]. apply Forall_inv in W. apply Forall_inv_tail in W. exact W.
  - intros x K. destruct (KEEP _ x K) as (y & Y & -> & _). auto.
Qed.

Lemma last_chained hs n : chained hs n -> forall m i fuel, (i + m = n)%nat -> (m < fuel)%nat -> last_irs hs fuel i = Some n.
Proof.
  intros [L C]. induction m as [|m IH]; intros i fuel E F; (destruct fuel as [|fuel]; [lia|]); cbn [last_irs];
    (destruct (nth_error hs i) as [h|] eqn:EH; [|apply nth_error_None in EH; lia]); cbn [obind]; rewrite (C _ _ EH).
  - destruct (Nat.ltb_spec i n); [lia|]. f_equal. lia.
  - destruct (Nat.ltb_spec i n); [|lia]. apply IH; lia.
Qed.

Lemma inv_initiator q a st r s : Inv q a st -> isisolate s = true -> clz s <> cPDI -> q <= sl s -> 0 < sl s ->
  exists st', on_event st (r, s) = Some st' /\ Inv (sl s + 1) (a_step a (r, s)) st' /\ s_rest st' = s_rest st /\ s_ctx st' = s_ctx st.
Proof.
  intros [J1 J2 J3 J4 J5 J6 J7 J8 J9 J10 J11 J12 J13 J14 J15] IS NP LE P0. unfold on_event, a_step. cbn [fst snd]. rewrite IS.
  unfold handleIsolatingRunSwitch. apply Z.eqb_neq in NP. rewrite NP. rewrite J2. cbn [obind]. pose proof J1 as [L C].
  rewrite (last_chained _ _ J1 (a_n a) 0 (length (s_hs st))) by lia. cbn [obind].
  destruct (nth_error (s_hs st) (a_n a)) as [h|] eqn:EH; [|apply nth_error_None in EH; lia]. cbn [obind].
  set (n := a_n a) in *. rewrite L. set (hs' := nset (s_hs st) n _ ++ _).
  eexists. split; [reflexivity|]. split; [|auto].
  assert (KEEP : forall k x, nth_error hs' k = Some x ->
    k = S n /\ x = mkhr new_handler (sl s) 0 None \/
    (k <= n)%nat /\ exists y, nth_error (s_hs st) k = Some y /\ h_first x = h_first y /\ h_last x = h_last y /\ h_bd x = h_bd y /\ h_next x = Some (S k)).
  { intros k x K. unfold hs' in K. destruct (Nat.lt_ge_cases k (S n)) as [LT|GE].
    - rewrite nth_error_app1 in K by (rewrite nset_length; lia). right. split; [lia|]. destruct (nset_cases _ _ _ _ _ K) as [(-> & -> & _)|(N & E)].
      + exists h. auto.
      + exists x. repeat split; auto. rewrite (C _ _ E). destruct (Nat.ltb_spec k n); [reflexivity|lia].
    - left. rewrite nth_error_app2 in K by (rewrite nset_length; lia). rewrite nset_length in K. destruct (k - length (s_hs st))%nat as [|[|?]] eqn:EK; try discriminate.
      injection K as <-. split; [lia|reflexivity]. }
  assert (OLD : forall k x y, (k <= n)%nat -> nth_error hs' k = Some x -> nth_error (s_hs st) k = Some y -> h_first x = h_first y /\ h_last x = h_last y /\ h_bd x = h_bd y).
  { intros k x y LT K Y. destruct (KEEP k x K) as [(E & _)|(_ & y' & Y' & E1 & E2 & E3 & _)]; [lia|]. rewrite Y in Y'. injection Y' as <-. auto. }
  assert (FB : forall k x, nth_error (s_hs st) k = Some x -> h_first x < sl s).
  { intros k x K. specialize (J13 k x K). lia. }
  assert (OB : Forall (fun x => (snd x <= n)%nat) (a_open a)) by (eapply Forall_impl; [|exact J8]; cbn; tauto).
  constructor; cbn [s_hs s_irs s_stack s_bd a_n a_open a_tags a_last fst snd]; auto.
  - split; [unfold hs'; rewrite app_length, nset_length, L; cbn; lia|]. intros k x K. destruct (KEEP k x K) as [(-> & ->)|(LT & y & Y & _ & _ & _ & ->)].
    + cbn [h_next]. rewrite Nat.ltb_irrefl. reflexivity.
    + destruct (Nat.ltb_spec k (S n)); [reflexivity|lia].
  - cbn [irs_find]. destruct (Z.eqb_spec (sl s) 0); [lia|exact J2].
  - constructor; [cbn [irs_find fst snd]; rewrite Z.eqb_refl; reflexivity|]. rewrite Forall_forall in *. intros x I. cbn [irs_find].
    destruct (J8 x I) as (X1 & _). destruct (Z.eqb_spec (sl s) (fst x)); [lia|]. apply J3. exact I.
  - rewrite J4. cbn [map fst rev]. reflexivity.
  - intros x K. destruct (KEEP _ x K) as [(E & _)|(_ & y & Y & -> & -> & _)]; [discriminate|]. auto.
  - cbn [map snd app]. constructor; [exact J7|]. apply Forall_app. split; [|constructor; [lia|constructor]]. apply Forall_map. eapply Forall_impl; [|exact OB]. cbn. intros. lia.
  - constructor.
    + cbn [fst snd]. split; [lia|]. split; [lia|]. intros x K. destruct (KEEP _ x K) as [(_ & ->)|(X & _)]; [reflexivity|lia].
    + eapply Forall_impl; [|exact J8]. cbn. intros x (X1 & X2 & X3). split; [lia|]. split; [lia|]. intros z K. destruct (KEEP _ z K) as [(E & _)|(_ & y & Y & _ & -> & _)]; [lia|]. auto.
  - intros k x K K1 K2. cbn [map snd In] in K2. destruct (KEEP _ x K) as [(E & _)|(_ & y & Y & _ & -> & _)]; [exfalso; apply K2; auto|].
    specialize (J9 k y Y K1 ltac:(tauto)). lia.
  - eapply Forall_impl; [|exact J10]. cbn. intros t (X1 & X2 & X3 & X4). split; [lia|]. split; [auto|]. split; [eapply Forall_impl; [|exact X3]; cbn; intros; lia|].
    intros k x K. destruct (KEEP _ x K) as [(-> & ->)|(_ & y & Y & E1 & E2 & _)].
    + unfold covers. cbn [h_first]. destruct (Z.leb_spec (sl s) (sl (snd (snd t)))); [lia|]. cbn [andb]. split; [discriminate|]. intros I. exfalso.
      apply in_app_or in I. destruct I as [I|[I|[]]]; [|discriminate]. rewrite Forall_forall in X3. specialize (X3 _ I). lia.
    + unfold covers. rewrite E1, E2. apply (X4 k y Y).
  - intros k x K. destruct (KEEP _ x K) as [(-> & ->)|(_ & y & Y & _ & _ & -> & _)]; [|auto]. cbn [h_bd].
    assert (E : owned (S n) (a_tags a) = []); [|rewrite E; reflexivity]. unfold owned.
    replace (filter _ (a_tags a)) with (@nil (list (Z * nat) * ev)); [reflexivity|]. symmetry. clear -J10.
    induction (a_tags a) as [|t l IH]; [reflexivity|]. cbn [filter]. pose proof (Forall_inv J10) as (_ & _ & X & _). apply Forall_inv_tail in J10. rewrite (IH J10).
    destruct (Nat.eqb_spec (owner (fst t)) (S n)) as [E|E]; [|reflexivity]. exfalso. apply owner_in in E. rewrite Forall_forall in X. specialize (X _ E). unfold n in *. lia.
  - intros i j x y LT K1 K2. destruct (KEEP _ x K1) as [(E & _)|(LI & x' & X & -> & _)].
    + destruct (KEEP _ y K2) as [(E' & _)|(E' & _)]; lia.
    + destruct (KEEP _ y K2) as [(_ & ->)|(_ & y' & Y & -> & _)]; [cbn [h_first]; eapply FB; eauto|]. eapply J12; eauto.
  - intros k x K. destruct (KEEP _ x K) as [(_ & ->)|(_ & y & Y & -> & _)]; [cbn [h_first]; lia|]. specialize (J13 k y Y). lia.
  - assert (W : Forall (fun o => Forall (fun x => forall h0, nth_error hs' (snd x) = Some h0 -> h_first h0 = fst x) o) (a_open a :: map fst (a_tags a))).
    { constructor.
      - apply Forall_inv in J14. rewrite Forall_forall in *. intros x I z K. specialize (OB x I). destruct (KEEP _ z K) as [(E & _)|(_ & y & Y & -> & _)]; [lia|]. apply (J14 x I y Y).
      - apply Forall_inv_tail in J14. apply Forall_map. rewrite Forall_forall in J14, J10. apply Forall_forall. intros t I. specialize (J14 (fst t) (in_map fst _ _ I)). destruct (J10 t I) as (_ & _ & X & _).
        rewrite Forall_forall in *. intros x IX z K. specialize (X (snd x) (in_map snd _ _ IX)). fold n in X. destruct (KEEP _ z K) as [(E & _)|(_ & y & Y & -> & _)]; [lia|]. apply (J14 x IX y Y). }
    constructor; [|apply Forall_inv_tail in W; exact W]. apply Forall_inv in W. constructor; [|exact W]. cbn [fst snd]. intros x K. destruct (KEEP _ x K) as [(_ & ->)|(X & _)]; [reflexivity|lia].
  - intros x K. destruct (KEEP _ x K) as [(_ & ->)|(X & _)]; [reflexivity|lia].
Qed.

Lemma inv_find q a st t : Inv q a st -> In t (a_tags a) ->
  findBD16ForPos st (sl (snd (snd t))) = Some (if (owner (fst t) <? a_n a)%nat then owner (fst t) else owner (tl (fst t))).
Proof.
  intros J I. pose proof (I_chain _ _ _ J) as CH. pose proof CH as [L _]. unfold findBD16ForPos. rewrite (I_zero _ _ _ J). cbn [obind].
  rewrite (walk_fold _ _ _ CH (a_n a) 0 0 (length (s_hs st))) by lia. f_equal.
  pose proof (I_tags _ _ _ J) as T. rewrite Forall_forall in T. destruct (T t I) as (_ & D & B & C).
  replace (owner (tl (fst t))) with (hd 0%nat (tl (map snd (fst t)))) by (unfold owner; destruct (fst t); reflexivity).
  apply fold_desc; auto. intros k LE. unfold covers_at.
  destruct (nth_error (s_hs st) k) as [h|] eqn:EH; [|apply nth_error_None in EH; lia]. apply (C k h EH).
Qed.

(* ---- the scanner ---- *)
Definition lens_pos (l : list (Z * Z)) : Prop := Forall (fun x => 0 < snd x) l.
Lemma pos_ok l : lens_pos l -> lens_ok l.
Proof. intros H. eapply Forall_impl; [|exact H]. cbn. intros. lia. Qed.
Definition soloc (c : Z) : Z := if bracket_class c || is_isolate c then c else -1.

Section Scan.
Context (md : mode) (props : Z -> Z * Z) (upper : Z -> bool).
Notation eff := (eff md props upper).
Notation para := (para md props).

(* The brackets, initiators and PDIs of the text; a mark counts as the character it belongs to (W1), except
   after an isolate character. *)
Fixpoint marks_of (prev pos : Z) (l : list (Z * Z)) : list mark :=
  match l with
  | [] => []
  | (r, len) :: t =>
      let k := class_of prev (eff r) in
      (if bracket_class k || is_isolate k then [(k, r, pos)] else []) ++ marks_of k (pos + len) t
  end.

Lemma soloc_eq x c d : soloc c = soloc d -> bracket_class x || is_isolate x = true -> x <> -1 -> (c =? x) = (d =? x).
Proof.
  unfold soloc. intros E X N. destruct (Z.eqb_spec c x) as [->|NC], (Z.eqb_spec d x) as [->|ND]; auto.
  - rewrite X in E. destruct (bracket_class d || is_isolate d); congruence.
  - rewrite X in E. destruct (bracket_class c || is_isolate c); congruence.
Qed.
Lemma la_like p cur c : soloc (clz cur) = soloc p -> soloc (applyRulesW1to3 c cur) = soloc (class_of p c).
Proof.
  intros E. unfold applyRulesW1to3, class_of, mark_of. destruct (c =? cNSM).
  - rewrite (soloc_eq cLRI _ _ E), (soloc_eq cRLI _ _ E), (soloc_eq cPDI _ _ E) by (reflexivity || discriminate).
    destruct (p =? cLRI); [reflexivity|]. destruct (p =? cRLI); [reflexivity|]. destruct (p =? cPDI); [reflexivity|exact E].
  - destruct (Z.eqb_spec c cEN) as [->|NE]; cbn [andb]; [destruct (_ =? cAL); reflexivity|].
    destruct (Z.eqb_spec c cAL) as [->|NA]; [reflexivity|]. destruct ((c =? cS) || (c =? cWS) || (c =? cON)) eqn:E2; [|reflexivity].
    repeat rewrite orb_true_iff in E2. rewrite !Z.eqb_eq in E2. destruct E2 as [[E2|E2]|E2]; rewrite E2; reflexivity.
Qed.
Lemma solo_soloc s : solo s = bracket_class (clz s) || is_isolate (clz s).
Proof. reflexivity. Qed.
Lemma soloc_solo c d : soloc c = soloc d -> bracket_class c || is_isolate c = bracket_class d || is_isolate d.
Proof.
  unfold soloc. destruct (bracket_class c || is_isolate c) eqn:E1, (bracket_class d || is_isolate d) eqn:E2; auto.
  - intros ->. discriminate E1.
  - intros <-. discriminate E2.
Qed.

Definition pend (rc : Z) (cur : scrap) : list mark := if isisolate cur then [(clz cur, rc, sl cur)] else [].
Definition a_pend (a : abs) (rc : Z) (cur : scrap) : abs := if isisolate cur then a_step a (rc, cur) else a.

Lemma iso_init s : isisolate s = true -> clz s <> cPDI -> initiates (clz s) = true.
Proof. unfold isisolate, initiates. intros H N. apply orb_true_iff in H. destruct H as [H|H]; [exact H|]. apply Z.eqb_eq in H. congruence. Qed.

Lemma inv_pending q a st rc cur ms : Inv q a st -> (isisolate cur = true -> q <= sl cur) ->
  matched (length (a_open a)) (pend rc cur ++ ms) = true ->
  exists st', (if isisolate cur then handleIsolatingRunSwitch st cur else Some st) = Some st' /\
    Inv (if isisolate cur then sl cur + 1 else q) (a_pend a rc cur) st' /\ s_rest st' = s_rest st /\ s_ctx st' = s_ctx st /\
    matched (length (a_open (a_pend a rc cur))) ms = true.
Proof.
  intros J LE M. unfold pend, a_pend in *. destruct (isisolate cur) eqn:EI; [|exists st; auto]. specialize (LE eq_refl). cbn [app matched] in M.
  destruct (Z.eqb_spec (clz cur) cPDI) as [EP|EP].
  - destruct (a_open a) as [|x o] eqn:EO; [discriminate M|]. cbn [length] in M.
    destruct (inv_pdi q a st rc cur J EP ltac:(congruence) LE) as (st' & E & J' & R1 & R2). unfold on_event in E. cbn [fst snd] in E. rewrite EI in E.
    exists st'. split; [exact E|]. split; [exact J'|]. split; [exact R1|]. split; [exact R2|]. unfold a_step. cbn [snd]. rewrite EP, Z.eqb_refl. cbn [a_open]. rewrite EO. exact M.
  - rewrite (iso_init cur EI EP) in M. apply andb_true_iff in M. destruct M as [M1 M2]. apply Z.ltb_lt in M1.
    destruct (inv_initiator q a st rc cur J EI EP LE M1) as (st' & E & J' & R1 & R2). unfold on_event in E. cbn [fst snd] in E. rewrite EI in E.
    exists st'. split; [exact E|]. split; [exact J'|]. split; [exact R1|]. split; [exact R2|]. unfold a_step. cbn [snd]. apply Z.eqb_neq in EP. rewrite EP, EI. cbn [a_open length]. exact M2.
Qed.

Lemma bracket_not_iso s : isbracket s = true -> isisolate s = false.
Proof. unfold isbracket, isisolate. rewrite orb_true_iff, !Z.eqb_eq. intros [-> | ->]; reflexivity. Qed.

Lemma seq_step q a rc st cur al p : Inv q a st -> lens_pos (s_rest st) -> soloc (clz cur) = soloc p ->
  0 <= sr cur -> q <= sr cur -> (isisolate cur = true -> q <= sl cur < sr cur) -> sr cur + total (para (s_rest st)) < 2 ^ 32 ->
  matched (length (a_open a)) (pend rc cur ++ marks_of p (sr cur) (para (s_rest st))) = true ->
  (para (s_rest st) = [] /\ scan_step md props upper None st cur al = Some ([cur; stopper], None) /\
     exists q' st', (if isisolate cur then handleIsolatingRunSwitch (snd (nextRune md props None st (sr cur))) cur else Some (snd (nextRune md props None st (sr cur)))) = Some st' /\ Inv q' (a_pend a rc cur) st') \/
  exists r len out st' cur' al',
    scan_step md props upper None st cur al = Some (out, Some (st', cur', al')) /\
    para (s_rest st) = (r, len) :: para (s_rest st') /\ lens_pos (s_rest st') /\ 0 < len /\
    soloc (clz cur') = soloc (class_of p (eff r)) /\ sr cur' = sr cur + len /\
    (out = [] /\ solo cur = false /\ solo cur' = false /\ Inv q a st' \/
     out = (if clz cur =? cNULL then [] else [cur]) /\ sl cur' = sr cur /\
     exists q', q' <= sr cur' /\ (isisolate cur' = true -> q' <= sl cur') /\
       Inv q' (if isbracket cur' then a_step (a_pend a rc cur) (r, cur') else a_pend a rc cur) st' /\
       matched (length (a_open (a_pend a rc cur))) (marks_of p (sr cur) (para (s_rest st))) = true).
Proof.
  intros J L K P0 QR QI B M. unfold scan_step. destruct (nextRune md props None st (sr cur)) as [inp st1] eqn:EN.
  cbn [nextRune] in EN. destruct (read_rune_spec md props upper _ _ _ EN (pos_ok _ L)) as (SH & C1 & L1 & _ & _ & RR).
  pose proof (Inv_same _ _ _ _ SH J) as J1. cbn [snd].
  destruct (inv_pending q a st1 rc cur _ J1 ltac:(intros X; specialize (QI X); lia) M) as (st2 & E2 & J2 & R2 & C2 & M2).
  destruct inp as [[[r len] c]|].
  2: { left. split; [exact RR|]. rewrite E2. cbn [obind]. split; [reflexivity|]. eauto. }
  right. destruct RR as (R1 & RP & R3). rewrite R3. exists r, len.
  assert (LN : 0 < len) by (rewrite R1 in L; apply Forall_inv in L; exact L).
  assert (L1' : lens_pos (s_rest st1)) by (rewrite R1 in L; apply Forall_inv_tail in L; exact L).
  assert (TP : 0 <= total (para (s_rest st1))) by (apply total_nonneg, para_lens; exact L1).
  assert (U : u32 (sr cur + len) = sr cur + len).
  { unfold u32. apply Z.mod_small. rewrite RP in B. cbn [total snd] in B. unfold total in *. cbn in B. lia. }
  rewrite U. pose proof (la_like p cur (eff r) K) as KL. set (la := mks (applyRulesW1to3 (eff r) cur) (sr cur) (sr cur + len) dc0 []).
  destruct (finished cur la) eqn:FI.
  - assert (E2' : (if negb (clz cur =? cNULL) && isisolate cur then handleIsolatingRunSwitch st1 cur else Some st1) = Some st2).
    { destruct (Z.eqb_spec (clz cur) cNULL) as [E|E]; cbn [negb andb]; [|exact E2]. unfold isisolate in E2. rewrite E in E2. exact E2. }
    rewrite E2'. cbn [obind]. match goal with |- context [let '(s, c) := ?x in _] => set (pr := x) end.
    assert (PR : same_h st2 (fst pr) /\ s_rest (fst pr) = s_rest st2 /\ sl (snd pr) = sl cur /\ sr (snd pr) = sr cur).
    { unfold pr. match goal with |- context [if ?b then _ else _] => destruct b end; [cbn; unfold same_h; cbn; auto|].
      destruct (s_ctx st2); [cbn; unfold same_h; auto|]. destruct (clz cur =? cPDI); cbn; unfold same_h; cbn; auto. }
    destruct pr as [st3 cur3]. cbn [fst snd] in PR. destruct PR as (S3 & R3' & PL & PR). pose proof (Inv_same _ _ _ _ S3 J2) as J3.
    set (x := inheritStrongTypes la cur3 al).
    assert (CX : clz x = clz la /\ sl x = sr cur /\ sr x = sr cur + len) by (unfold x, inheritStrongTypes, la; cbn; auto). destruct CX as (CX & SX & RX).
    destruct (isbracket x) eqn:EB.
    + pose proof (bracket_not_iso x EB) as NI.
      destruct (inv_bracket _ _ st3 r x J3 EB NI) as (st4 & E4 & J4 & R4 & C4).
      { rewrite SX. destruct (isisolate cur) eqn:EI; [specialize (QI eq_refl); lia|lia]. }
      { lia. }
      unfold on_event in E4. cbn [fst snd] in E4. rewrite NI in E4. rewrite E4. cbn [obind].
      match goal with |- exists _ _ _ _, Some (?o, Some (?s, ?c, ?a)) = _ /\ _ => exists o, s, c, a end.
      split; [reflexivity|]. rewrite R4, R3', R2. split; [exact RP|]. split; [exact L1'|]. split; [exact LN|]. split; [rewrite CX; exact KL|]. split; [lia|].
      right. split; [reflexivity|]. split; [exact SX|]. exists (sl x + 1). split; [lia|]. split; [congruence|]. rewrite EB. split; [exact J4|exact M2].
    + unfold prepareRuleBD16. rewrite EB. cbn [negb obind].
      match goal with |- exists _ _ _ _, Some (?o, Some (?s, ?c, ?a)) = _ /\ _ => exists o, s, c, a end.
      split; [reflexivity|]. rewrite R3', R2. split; [exact RP|]. split; [exact L1'|]. split; [exact LN|]. split; [rewrite CX; exact KL|]. split; [lia|].
      right. split; [reflexivity|]. split; [exact SX|]. exists (sr cur). split; [lia|]. split; [lia|]. rewrite EB. split; [|exact M2].
      eapply Inv_mono; [|exact J3]. destruct (isisolate cur) eqn:EI; [specialize (QI eq_refl); lia|lia].
  - unfold finished in FI. repeat (apply orb_false_iff in FI; destruct FI as [FI ?]).
    match goal with |- exists _ _ _ _, Some (?o, Some (?s, ?c, ?a)) = _ /\ _ => exists o, s, c, a end.
    split; [reflexivity|]. split; [exact RP|]. split; [exact L1'|]. split; [exact LN|].
    match goal with X : negb (clz cur =? clz la) = false |- _ => apply negb_false_iff, Z.eqb_eq in X; rename X into EQ end.
    split; [cbn [collapse clz]; rewrite EQ; exact KL|]. split; [cbn [collapse sr la]; lia|]. left. split; [reflexivity|].
    assert (SO : solo cur = false) by (unfold solo; apply orb_false_iff; auto). split; [exact SO|]. split; [|exact J1]. rewrite solo_soloc in *. exact SO.
Qed.

Definition mview (e : ev) : mark := (clz (snd e), fst e, sl (snd e)).

Lemma seq_loop : forall n q a rc st cur al p out st', Inv q a st -> lens_pos (s_rest st) -> soloc (clz cur) = soloc p ->
  0 <= sr cur -> q <= sr cur -> (isisolate cur = true -> q <= sl cur < sr cur) -> sr cur + total (para (s_rest st)) < 2 ^ 32 ->
  matched (length (a_open a)) (pend rc cur ++ marks_of p (sr cur) (para (s_rest st))) = true ->
  scan_loop md props upper None n st cur al = Ok out -> scan_final md props upper None n st cur al = Ok st' ->
  exists es q', filter solo out = (if solo cur then [cur] else []) ++ map snd es /\
    map mview es = marks_of p (sr cur) (para (s_rest st)) /\ Inv q' (fold_left a_step es (a_pend a rc cur)) st'.
Proof.
  induction n as [|n IH]; intros q a rc st cur al p out st' J L K P0 QR QI B M H1 H2; [discriminate|]. cbn [scan_loop scan_final] in H1, H2.
  destruct (seq_step q a rc st cur al p J L K P0 QR QI B M) as [(EP & ES & q' & st1 & E1 & J1)|(r & len & o & st1 & cur1 & al1 & ES & EP & L1 & LN & K1 & SR1 & CS)].
  - rewrite ES in H1, H2. cbn [lift rbind] in H1, H2. injection H1 as <-. rewrite E1 in H2. cbn [lift rbind] in H2. injection H2 as <-.
    exists [], q'. rewrite EP. cbn [filter marks_of map fold_left]. change (solo stopper) with false. split; [destruct (solo cur); reflexivity|]. split; [reflexivity|].
    eapply Inv_same; [|exact J1]. unfold same_h, at_rest. cbn. auto.
  - rewrite ES in H1, H2. cbn [lift rbind] in H1, H2.
    destruct (scan_loop md props upper None n st1 cur1 al1) as [more| |] eqn:EM; try discriminate. cbn [rbind] in H1. injection H1 as <-.
    assert (B1 : sr cur1 + total (para (s_rest st1)) < 2 ^ 32) by (rewrite EP in B; cbn [total snd] in B; unfold total in *; cbn in B; lia).
    pose proof (soloc_solo _ _ K1) as KB. rewrite <- solo_soloc in KB.
    assert (MM : marks_of p (sr cur) (para (s_rest st)) = (if solo cur1 then [(class_of p (eff r), r, sr cur)] else []) ++ marks_of (class_of p (eff r)) (sr cur1) (para (s_rest st1))).
    { rewrite EP. cbn [marks_of]. rewrite KB, SR1. reflexivity. }
    destruct CS as [(-> & S0 & S1 & J1)|(-> & SL & q1 & Q1 & Q2 & J1 & M1)].
    + assert (I0 : isisolate cur = false /\ isisolate cur1 = false) by (unfold solo in S0, S1; apply orb_false_iff in S0, S1; tauto). destruct I0 as [I0 I1].
      rewrite S1 in MM. cbn [app] in MM.
      destruct (IH q a rc st1 cur1 al1 (class_of p (eff r)) more st' J1 L1 K1 ltac:(lia) ltac:(lia) ltac:(congruence) B1) as (es & q' & X1 & X2 & X3); auto.
      { unfold pend in *. rewrite I1. rewrite I0 in M. cbn [app] in *. rewrite <- MM. exact M. }
      exists es, q'. unfold a_pend in *. rewrite I0. rewrite I1 in X3. rewrite S0. rewrite S1 in X1. split; [exact X1|]. split; [rewrite MM; exact X2|exact X3].
    + set (a1 := a_pend a rc cur) in *.
      set (a2 := if isbracket cur1 then a_step a1 (r, cur1) else a1) in *.
      assert (M2 : matched (length (a_open a2)) (pend r cur1 ++ marks_of (class_of p (eff r)) (sr cur1) (para (s_rest st1))) = true).
      { rewrite MM in M1. unfold a2, pend. destruct (isbracket cur1) eqn:EB.
        - pose proof (bracket_not_iso _ EB) as NI. rewrite NI. assert (SO : solo cur1 = true) by (unfold solo; rewrite EB; reflexivity). rewrite SO in M1. cbn [app matched] in M1 |- *.
          assert (CE : clz cur1 = class_of p (eff r)).
          { unfold soloc in K1. rewrite <- KB in K1. rewrite <- solo_soloc, SO in K1. exact K1. }
          rewrite <- CE in M1. unfold a_step. cbn [snd]. unfold isisolate in NI. apply orb_false_iff in NI. destruct NI as [N1 N2].
          unfold isisolate. rewrite N2, orb_false_r, N1. rewrite N2 in M1. unfold initiates in M1. rewrite N1 in M1. cbn [a_open]. rewrite <- CE. exact M1.
        - destruct (isisolate cur1) eqn:EI.
          + assert (SO : solo cur1 = true) by (unfold solo; rewrite EI; apply orb_true_r). rewrite SO in M1.
            assert (CE : clz cur1 = class_of p (eff r)).
            { unfold soloc in K1. rewrite <- KB in K1. rewrite <- solo_soloc, SO in K1. exact K1. }
            rewrite CE, SL. exact M1.
          + assert (SO : solo cur1 = false) by (unfold solo; rewrite EB, EI; reflexivity). rewrite SO in M1. exact M1. }
      destruct (IH q1 a2 r st1 cur1 al1 (class_of p (eff r)) more st' J1 L1 K1 ltac:(lia) Q1 ltac:(intros X; specialize (Q2 X); lia) B1 M2 EM H2) as (es & q' & X1 & X2 & X3).
      exists ((if solo cur1 then [(r, cur1)] else []) ++ es), q'.
      split. { rewrite filter_app, X1, map_app. destruct (Z.eqb_spec (clz cur) cNULL) as [E|E].
        - assert (SO : solo cur = false) by (rewrite solo_soloc, E; reflexivity). rewrite SO. destruct (solo cur1); reflexivity.
        - cbn [filter]. destruct (solo cur), (solo cur1); reflexivity. }
      split. { rewrite map_app. etransitivity; [apply f_equal; exact X2|]. rewrite MM. f_equal. destruct (solo cur1) eqn:SO; [|reflexivity]. cbn [map mview fst snd].
        assert (CE : clz cur1 = class_of p (eff r)). { unfold soloc in K1. rewrite <- KB in K1. rewrite <- solo_soloc, SO in K1. exact K1. }
        unfold mview. cbn [fst snd]. rewrite CE, SL. reflexivity. }
      replace (fold_left a_step ((if solo cur1 then [(r, cur1)] else []) ++ es) a1) with (fold_left a_step es (a_pend a2 r cur1)); [exact X3|].
      rewrite fold_left_app. f_equal. unfold a_pend, a2, solo. destruct (isbracket cur1) eqn:EB.
      * rewrite (bracket_not_iso _ EB). reflexivity.
      * destruct (isisolate cur1); reflexivity.
Qed.

(* ---- positions ---- *)
Lemma asc_le : forall t lo lo', lo <= lo' -> ascending lo' t -> ascending lo t.
Proof. destruct t as [|[r p] t]; [auto|]. cbn. intros lo lo' LE [X Y]. split; [lia|exact Y]. Qed.
Definition at_pos (m : mark) : Z * Z := (snd (fst m), snd m).
Lemma para_pos : forall l, lens_pos l -> lens_pos (para l).
Proof. induction 1 as [|[r len] t H _ IH]; cbn [ScannerProofs.para]; [constructor|]. cbn [fst]. destruct (_ && _); [constructor|]. constructor; auto. Qed.
Lemma marks_asc : forall l prev pos, lens_pos l -> ascending pos (map at_pos (marks_of prev pos l)).
Proof.
  induction l as [|[r len] t IH]; intros prev pos L; [exact Logic.I|]. cbn [marks_of]. pose proof (Forall_inv L) as X. apply Forall_inv_tail in L. cbn [snd] in X.
  specialize (IH (class_of prev (eff r)) (pos + len) L). destruct (_ || _); cbn [app map at_pos fst snd].
  - cbn [ascending at_pos fst snd]. split; [lia|]. eapply asc_le; [|exact IH]. lia.
  - eapply asc_le; [|exact IH]. lia.
Qed.
Lemma marks_class : forall l prev pos, Forall (fun m => eff (snd (fst m)) <> cNSM -> fst (fst m) = eff (snd (fst m))) (marks_of prev pos l).
Proof.
  induction l as [|[r len] t IH]; intros prev pos; [constructor|]. cbn [marks_of]. apply Forall_app. split; [|apply IH].
  destruct (_ || _); [|constructor]. constructor; [|constructor]. cbn [fst snd]. unfold class_of. intros N. apply Z.eqb_neq in N. rewrite N. reflexivity.
Qed.
End Scan.

Lemma homes_asc : forall ms open lo, ascending lo (map at_pos ms) -> ascending lo (map snd (homes open ms)).
Proof.
  induction ms as [|[[c r] p] t IH]; intros open lo A; [exact Logic.I|]. cbn [map at_pos fst snd ascending] in A. destruct A as [A1 A2]. cbn [homes].
  destruct (c =? cPDI); [apply IH; eapply asc_le; [|exact A2]; lia|]. destruct (initiates c); [apply IH; eapply asc_le; [|exact A2]; lia|].
  cbn [map snd ascending]. split; [exact A1|]. apply IH. exact A2.
Qed.
Lemma sequence_asc z : forall l lo, ascending lo (map snd l) -> ascending lo (sequence z l).
Proof.
  unfold sequence. induction l as [|[o [r p]] t IH]; intros lo A; [exact Logic.I|]. cbn [map snd ascending] in A. destruct A as [A1 A2]. cbn [filter fst].
  destruct (_ =? z); [cbn [map snd ascending]; auto|]. eapply asc_le; [|apply IH; exact A2]. lia.
Qed.
Lemma asc_nodup : forall l lo, ascending lo l -> NoDup (map snd l) /\ Forall (fun x => lo <= snd x) l.
Proof.
  induction l as [|[r p] t IH]; intros lo A; [split; constructor|]. cbn [ascending] in A. destruct A as [A1 A2]. destruct (IH _ A2) as [N F]. split.
  - cbn [map snd]. constructor; [|exact N]. intros X. apply in_map_iff in X as (y & E & I). rewrite Forall_forall in F. specialize (F y I). cbn in F. lia.
  - constructor; [exact A1|]. eapply Forall_impl; [|exact F]. cbn. intros. lia.
Qed.

(* ---- the brackets and their isolates ---- *)
Definition tview (t : list (Z * nat) * ev) : list Z * (Z * Z) := (map fst (fst t), view (snd t)).
Lemma tags_homes : forall es a, Forall (fun e => solo (snd e) = true) es ->
  map tview (a_tags (fold_left a_step es a)) = map tview (a_tags a) ++ homes (map fst (a_open a)) (map mview es) /\
  map snd (a_tags (fold_left a_step es a)) = map snd (a_tags a) ++ filter (fun e => isbracket (snd e)) es /\
  a_last (fold_left a_step es a) = last_initiator (a_last a) (map mview es).
Proof.
  induction es as [|[r s] es IH]; intros a F; [cbn; rewrite !app_nil_r; auto|]. pose proof (Forall_inv F) as S. apply Forall_inv_tail in F. cbn [snd] in S.
  cbn [fold_left]. destruct (IH (a_step a (r, s)) F) as (X1 & X2 & X3). rewrite X1, X2, X3. clear IH X1 X2 X3.
  unfold a_step. cbn [snd fst map mview homes last_initiator filter].
  assert (BI : isbracket s = negb (isisolate s)).
  { unfold solo in S. destruct (isbracket s) eqn:EB; [rewrite (bracket_not_iso _ EB); reflexivity|]. cbn [orb] in S. rewrite S. reflexivity. }
  rewrite BI. change (fst (mview (r, s))) with (clz s, r). cbn [fst snd].
  unfold mview at 2 3. cbn [fst snd].
  destruct (clz s =? cPDI) eqn:EP.
  - assert (IS : isisolate s = true) by (unfold isisolate; rewrite EP; apply orb_true_r). rewrite IS. cbn [negb a_tags a_open a_last].
    assert (IN : initiates (clz s) = false) by (apply Z.eqb_eq in EP; rewrite EP; reflexivity). rewrite IN.
    replace (map fst (tl (a_open a))) with (tl (map fst (a_open a))) by (destruct (a_open a); reflexivity). auto.
  - assert (IN : initiates (clz s) = isisolate s) by (unfold isisolate, initiates; rewrite EP, orb_false_r; reflexivity). rewrite IN.
    destruct (isisolate s); cbn [negb a_tags a_open a_last map fst]; [auto|]. rewrite !map_app. cbn [map tview fst snd view]. rewrite <- !app_assoc. cbn [app]. auto.
Qed.

Section Handlers.
Context (q : Z) (a : abs) (st : scst) (J : Inv q a st).
Lemma handler_at k : (k <= a_n a)%nat -> exists h, nth_error (s_hs st) k = Some h /\ h_bd h = bd16_run new_handler (owned k (a_tags a)).
Proof.
  intros LE. pose proof (I_chain _ _ _ J) as [L _]. destruct (nth_error (s_hs st) k) as [h|] eqn:E; [|apply nth_error_None in E; lia].
  exists h. split; [reflexivity|]. apply (I_bds _ _ _ J). exact E.
Qed.
(* the isolates around a bracket *)
Definition around (o : list (Z * nat)) : Prop := exists t u, In t (a_tags a) /\ fst t = u ++ o.
Lemma around_le o : around o -> (owner o <= a_n a)%nat.
Proof.
  intros (t & u & I & E). pose proof (I_tags _ _ _ J) as T. rewrite Forall_forall in T. destruct (T t I) as (_ & _ & B & _). rewrite E, map_app in B.
  apply Forall_app in B. destruct B as [_ B]. unfold owner. destruct o as [|x o]; [cbn; lia|]. cbn [map hd] in *. apply Forall_inv in B. exact B.
Qed.
Lemma around_first o h : around o -> nth_error (s_hs st) (owner o) = Some h -> h_first h = home (map fst o).
Proof.
  intros (t & u & I & E) H. destruct o as [|x o].
  - cbn in *. apply (I_top _ _ _ J). exact H.
  - cbn [map home hd]. unfold owner in H. cbn [map hd] in H. pose proof (I_pos _ _ _ J) as P. apply Forall_inv_tail in P. rewrite Forall_forall in P.
    specialize (P (fst t) (in_map fst _ _ I)). rewrite E in P. apply Forall_app in P. destruct P as [_ P]. apply Forall_inv in P. apply (P h H).
Qed.
Lemma first_inj j k hj hk : nth_error (s_hs st) j = Some hj -> nth_error (s_hs st) k = Some hk -> h_first hj = h_first hk -> j = k.
Proof.
  intros A B E. destruct (Nat.lt_trichotomy j k) as [LT|[EQ|GT]]; [|exact EQ|].
  - pose proof (I_first _ _ _ J _ _ _ _ LT A B). lia.
  - pose proof (I_first _ _ _ J _ _ _ _ GT B A). lia.
Qed.
Lemma around_home o o' : around o -> around o' -> (home (map fst o) =? home (map fst o')) = (owner o =? owner o')%nat.
Proof.
  intros A A'. destruct (handler_at _ (around_le _ A)) as (h & H & _), (handler_at _ (around_le _ A')) as (h' & H' & _).
  rewrite <- (around_first _ _ A H), <- (around_first _ _ A' H').
  destruct (Nat.eqb_spec (owner o) (owner o')) as [E|E]; [rewrite E in H; rewrite H in H'; injection H' as ->; apply Z.eqb_refl|].
  apply Z.eqb_neq. intros X. apply E. apply (first_inj _ _ _ _ H H' X).
Qed.
Lemma around_last o : around o -> (home (map fst o) =? a_last a) = negb (owner o <? a_n a)%nat.
Proof.
  intros A. pose proof (around_le _ A) as LE. destruct (handler_at _ LE) as (h & H & _), (handler_at (a_n a) (le_n _)) as (h' & H' & _).
  rewrite <- (around_first _ _ A H), <- (I_last _ _ _ J _ H').
  destruct (Nat.ltb_spec (owner o) (a_n a)) as [LT|GE]; cbn [negb].
  - apply Z.eqb_neq. pose proof (I_first _ _ _ J _ _ _ _ LT H H'). lia.
  - assert (E : owner o = a_n a) by lia. rewrite E in H. rewrite H in H'. injection H' as ->. apply Z.eqb_refl.
Qed.
Lemma owned_sequence o : around o -> map view (owned (owner o) (a_tags a)) = sequence (home (map fst o)) (map tview (a_tags a)).
Proof.
  intros A. unfold owned, sequence.
  assert (G : forall l, incl l (a_tags a) -> map view (map snd (filter (fun t => (owner (fst t) =? owner o)%nat) l)) = map snd (filter (fun x => home (fst x) =? home (map fst o)) (map tview l))).
  { induction l as [|t l IH]; intros I; [reflexivity|]. cbn [map filter]. change (fst (tview t)) with (map fst (fst t)).
    assert (AT : around (fst t)) by (exists t, (@nil (Z * nat)); split; [apply I; left; reflexivity|reflexivity]). rewrite (around_home _ _ AT A).
    specialize (IH ltac:(intros x X; apply I; right; exact X)). destruct (_ =? _)%nat; [cbn [map]; rewrite IH; reflexivity|exact IH]. }
  apply G. apply incl_refl.
Qed.
End Handlers.

Section Text.
Context (md : mode) (props : Z -> Z * Z) (upper : Z -> bool).
Notation eff := (eff md props upper).
Notation para := (para md props).

(* The handler that is found for a bracket has been given the brackets of one isolating run sequence. *)
Theorem text_sequences input out st : lens_pos input -> total (para input) < 2 ^ 32 ->
  let ms := marks_of md props upper cNULL 0 (para input) in let hm := homes [] ms in
  matched 0 ms = true ->
  Scan md props upper None input = Ok (out ++ [stopper]) -> ScanFinal md props upper None input = Ok st ->
  map (fun s => (clz s, sl s)) (filter solo out) = map (fun m => (fst (fst m), snd m)) ms /\
  forall s, In s out -> isbracket s = true -> exists o r es i h, In (o, (r, sl s)) hm /\
    findBD16ForPos st (sl s) = Some i /\ nth_error (s_hs st) i = Some h /\ h_bd h = bd16_run new_handler es /\
    map view es = sequence (if home o =? last_initiator 0 ms then home (tl o) else home o) hm /\
    (o <> [] -> home (tl o) <> home o) /\
    incl (map snd es) out /\ Forall (fun e => isbracket (snd e) = true /\ (eff (fst e) <> cNSM -> clz (snd e) = eff (fst e))) es.
Proof.
  intros L B ms hm M H1 H2.
  assert (IC : clz (initialOuterScrap md false) = cNULL /\ sl (initialOuterScrap md false) = 0 /\ sr (initialOuterScrap md false) = 0) by (unfold initialOuterScrap; destruct (m_r2l md); auto).
  destruct IC as (I1 & I2 & I3).
  assert (NI : isisolate (initialOuterScrap md false) = false) by (unfold isisolate; rewrite I1; reflexivity).
  destruct (seq_loop md props upper _ 0 (mkabs 0 [] [] 0) 0 (newScanner input) (initialOuterScrap md false) (-1) cNULL _ _ (Inv_start input) L
    ltac:(rewrite I1; reflexivity) ltac:(lia) ltac:(lia) ltac:(congruence) ltac:(rewrite I3; exact B) ltac:(unfold pend; rewrite NI, I3; exact M) H1 H2) as (es & q & X1 & X2 & J).
  unfold a_pend in J. rewrite NI in J. change (s_rest (newScanner input)) with input in X2. rewrite I3 in X2. fold ms in X2.
  assert (S0 : solo (initialOuterScrap md false) = false) by (rewrite solo_soloc, I1; reflexivity). rewrite S0 in X1. cbn [app] in X1.
  rewrite filter_app in X1. cbn [filter] in X1. change (solo stopper) with false in X1. rewrite app_nil_r in X1.
  assert (SO : Forall (fun e => solo (snd e) = true) es).
  { apply Forall_forall. intros e I. apply (in_map snd) in I. rewrite <- X1 in I. apply filter_In in I. tauto. }
  split. { rewrite X1, <- X2, !map_map. reflexivity. }
  intros s IS BS. set (a0 := mkabs 0 [] [] 0) in *. destruct (tags_homes es a0 SO) as (T1 & T2 & T3). set (a := fold_left a_step es a0) in *.
  cbn [a_tags a_open a_last map a0 app] in T1, T2, T3. rewrite X2 in T1, T3. fold hm in T1.
  assert (IE : In s (map snd es)) by (rewrite <- X1; apply filter_In; split; [exact IS|]; unfold solo; rewrite BS; reflexivity).
  apply in_map_iff in IE as ([r s'] & E & IE). cbn in E. subst s'.
  assert (IT : In (r, s) (map snd (a_tags a))) by (rewrite T2; apply filter_In; split; [exact IE|exact BS]).
  apply in_map_iff in IT as ([o e] & E & IT). cbn in E. subst e.
  pose proof (inv_find q a st _ J IT) as FD. cbn [fst snd] in FD.
  assert (A1 : around a o) by (exists (o, (r, s)), []; split; [exact IT|reflexivity]).
  assert (A2 : around a (tl o)) by (exists (o, (r, s)), (firstn 1 o); split; [exact IT|]; destruct o; reflexivity).
  set (o' := if (owner o <? a_n a)%nat then o else tl o).
  assert (A' : around a o') by (unfold o'; destruct (_ <? _)%nat; assumption).
  destruct (handler_at q a st J (owner o') (around_le _ _ _ J _ A')) as (h & EH & EB).
  exists (map fst o), r, (owned (owner o') (a_tags a)), (owner o'), h.
  split. { rewrite <- T1. apply in_map_iff. exists (o, (r, s)). split; [reflexivity|exact IT]. }
  split. { rewrite FD. unfold o'. destruct (_ <? _)%nat; reflexivity. }
  split; [exact EH|]. split; [exact EB|]. split.
  { rewrite (owned_sequence q a st J _ A'), T1. f_equal. rewrite <- T3, (around_last q a st J _ A1). unfold o'.
    replace (tl (map fst o)) with (map fst (tl o)) by (destruct o; reflexivity). destruct (_ <? _)%nat; reflexivity. }
  split. { intros NE X. destruct o as [|x o]; [apply NE; reflexivity|]. cbn [map tl] in X. pose proof (around_home q a st J _ _ A2 A1) as Y. cbn [tl map] in Y.
    replace (home (map fst o)) with (home (fst x :: map fst o)) in Y by (symmetry; exact X). rewrite Z.eqb_refl in Y. symmetry in Y. apply Nat.eqb_eq in Y.
    pose proof (I_tags _ _ _ J) as T. rewrite Forall_forall in T. destruct (T _ IT) as (_ & D & _). cbn [fst map app] in D. apply StronglySorted_inv in D. destruct D as [_ D].
    unfold owner in Y. cbn [map hd] in Y. destruct o as [|y o]; cbn in Y, D; apply Forall_inv in D; lia. }
  assert (OW : incl (owned (owner o') (a_tags a)) (filter (fun e => isbracket (snd e)) es)).
  { rewrite <- T2. unfold owned. intros x X. apply in_map_iff in X as (t & <- & I). apply filter_In in I. apply in_map. tauto. }
  split.
  - intros x X. apply in_map_iff in X as (e & <- & I). apply OW in I. apply filter_In in I. destruct I as [I _].
    assert (Y : In (snd e) (filter solo out)) by (rewrite X1; apply in_map; exact I). apply filter_In in Y. tauto.
  - apply Forall_forall. intros e I. apply OW in I. apply filter_In in I. destruct I as [I Y]. split; [exact Y|]. intros N.
    pose proof (marks_class md props upper (para input) cNULL 0) as MC. fold ms in MC. rewrite <- X2 in MC. rewrite Forall_forall in MC. apply (MC (mview e) (in_map mview _ _ I)). exact N.
Qed.
End Text.

Section Pairs.
Context (md : mode) (props : Z -> Z * Z) (upper : Z -> bool).
Notation eff := (eff md props upper).
Notation para := (para md props).

Theorem text_pairs input ss st : lens_pos input -> total (para input) < 2 ^ 32 ->
  let ms := marks_of md props upper cNULL 0 (para input) in let hm := homes [] ms in
  matched 0 ms = true ->
  Scan md props upper None input = Ok (ss ++ [stopper]) -> ScanFinal md props upper None input = Ok st ->
  forall s, In s ss -> isbracket s = true -> exists o r, In (o, (r, sl s)) hm /\
    (o <> [] /\ home o = last_initiator 0 ms -> fst (findBracket st s) = None) /\
    (o = [] \/ home o <> last_initiator 0 ms -> let bs := sequence (home o) hm in
     Forall (fun x => eff x = cBRACKO /\ is_op x = true \/ eff x = cBRACKC /\ is_cl x = true) (map fst bs) ->
     no_mix canon13 (map fst bs) (map fst bs) -> bd_fits uax9BracketPairs canon13 [] bs = true ->
     match fst (findBracket st s) with
     | Some x => In x ss /\ In (if clz s =? cBRACKO then (sl s, sl x) else (sl x, sl s)) (bd16 uax9BracketPairs canon13 [] bs)
     | None => forall q, In q (bd16 uax9BracketPairs canon13 [] bs) -> (if clz s =? cBRACKO then fst q else snd q) <> sl s
     end).
Proof.
  intros L B ms hm M H1 H2 s IS BS. destruct (text_sequences md props upper input ss st L B M H1 H2) as [_ TS].
  destruct (TS s IS BS) as (o & r & es & i & h & T1 & T2 & T3 & T4 & T5 & T6 & T7 & T8). fold ms in T1, T5. fold hm in T1, T5.
  assert (AH : ascending 0 (map snd hm)) by (apply homes_asc, marks_asc, para_pos, L).
  assert (FE : findBracket st s = (match find_pairing (pairs (bd16_run new_handler es)) s with Some p => Some (if clz s =? cBRACKO then pg_close p else pg_open p) | None => None end, st)).
  { unfold findBracket. rewrite T2. cbn [obind]. rewrite T3. cbn [obind]. rewrite T4. destruct (find_pairing _ s); reflexivity. }
  assert (GV : forall p, In p (pairs (bd16_run new_handler es)) -> In (pg_open p) (map snd es) /\ In (pg_close p) (map snd es)).
  { destruct (given_new es) as [_ GV]. rewrite Forall_forall in GV. intros p I. destruct (GV p I) as (x & r1 & y & r2 & z & ->). rewrite map_app. cbn [map snd]. rewrite map_app. cbn [map snd].
    split; apply in_or_app; right; [left; reflexivity|right; apply in_or_app; right; left; reflexivity]. }
  exists o, r. split; [exact T1|]. split.
  - intros [NE EL]. rewrite EL, Z.eqb_refl in T5. rewrite FE. cbn [fst]. destruct (find_pairing _ s) as [p|] eqn:EF; [|reflexivity]. exfalso.
    destruct (find_spec s _ _ EF) as [IP SP]. destruct (GV p IP) as [G1 G2].
    assert (X : exists e, In e es /\ sl (snd e) = sl s).
    { destruct (clz s =? cBRACKO); [apply in_map_iff in G1 as (e & E & I)|apply in_map_iff in G2 as (e & E & I)]; exists e; (split; [exact I|congruence]). }
    destruct X as (e & IE & SE). apply (in_map view) in IE. rewrite T5 in IE. unfold sequence in IE. apply in_map_iff in IE as ([o2 rp] & E2 & IE). cbn [snd] in E2. subst rp.
    apply filter_In in IE. destruct IE as [IE HE]. cbn [fst] in HE. apply Z.eqb_eq in HE.
    assert (EO : o2 = o).
    { destruct (asc_nodup _ _ AH) as [ND _]. rewrite map_map in ND. clear -ND T1 IE SE.
      assert (G : forall l, NoDup (map (fun x : list Z * (Z * Z) => snd (snd x)) l) -> In (o, (r, sl s)) l -> In (o2, view e) l -> o2 = o).
      { induction l as [|y l IH]; intros N A C; [destruct A|]. cbn [map] in N. apply NoDup_cons_iff in N. destruct N as [N1 N2].
        destruct A as [A|A], C as [C|C].
        - congruence.
        - exfalso. apply N1. subst y. cbn [snd]. apply in_map_iff. exists (o2, view e). split; [exact SE|exact C].
        - exfalso. apply N1. subst y. cbn [snd view]. rewrite SE. apply in_map_iff. exists (o, (r, sl s)). split; [reflexivity|exact A].
        - apply IH; assumption. }
      apply (G hm ND T1 IE). }
    subst o2. specialize (T6 NE). congruence.
  - intros OR bs FB NM FI. assert (EZ : (if home o =? last_initiator 0 ms then home (tl o) else home o) = home o).
    { destruct (Z.eqb_spec (home o) (last_initiator 0 ms)) as [E|E]; [|reflexivity]. destruct OR as [->|OR]; [reflexivity|contradiction]. }
    rewrite EZ in T5. fold bs in T5.
    assert (AS : ascending 0 (map view es)) by (rewrite T5; apply sequence_asc; exact AH).
    assert (RS : map fst es = map fst bs) by (rewrite <- T5, map_map; apply map_ext; intros []; reflexivity).
    assert (BC : Forall bracket_char es).
    { rewrite <- RS in FB. apply Forall_map in FB. rewrite Forall_forall in *. intros e I. specialize (FB e I). destruct (T8 e I) as [_ CL]. cbn beta in FB.
      destruct FB as [[X Y]|[X Y]]; rewrite X in CL; specialize (CL ltac:(discriminate)); [left|right; left]; (split; [exact CL|]); [apply is_op_spec|apply is_cl_spec]; exact Y. }
    assert (UM : unmixed es) by (unfold unmixed; rewrite RS; exact NM).
    rewrite FE. cbn [fst]. pose proof (bd16_found es s BC UM ltac:(rewrite T5; exact FI) AS) as BF. rewrite T5 in BF.
    destruct (find_pairing (pairs (bd16_run new_handler es)) s) as [p|] eqn:EF; [|exact BF].
    destruct BF as (BF1 & BF2 & _). destruct (find_spec s _ _ EF) as [IP _]. destruct (GV p IP) as [G1 G2].
    unfold pview in BF1, BF2. cbn [fst snd] in BF2. destruct (clz s =? cBRACKO); (split; [apply T7; assumption|]); rewrite <- BF2; exact BF1.
Qed.
End Pairs.
