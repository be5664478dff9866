(* ResolverFlat.v -- resolving texts without isolates: the resolved runs tile the text. *)
From Coq Require Import List ZArith Lia Bool.
From Verif Require Import Base Scrap Brackets Trie Rules RuleProofs Reorder ReorderSpec ReorderProofs SplitProofs Scanner ScannerProofs Resolver ResolverProofs.
Import ListNotations.
Open Scope Z_scope.

(* ---- lists with a relation between neighbours ---- *)
Lemma linked_tail R a l : linked R (a :: l) -> linked R l.
Proof. destruct l; [intros _; exact I|]. intros [_ H]. exact H. Qed.

Lemma linked_meld R m x : m <> [] ->
  forall a b, linked R (a ++ m ++ b) ->
  (forall y, R y (hd scrap0 m) -> R y x) -> (forall y, R (last m scrap0) y -> R x y) -> linked R (a ++ x :: b).
Proof.
  intros NM a b L H1 H2.
  assert (B : linked R (m ++ b) -> linked R (x :: b)).
  { clear L H1 a. revert H2. induction m as [|y m IH]; [congruence|]. intros H2 L. destruct m as [|z m].
    - destruct b as [|c b]; [exact I|]. cbn in L |- *. destruct L as [L1 L2]. split; auto.
    - apply IH; [discriminate|exact H2|]. exact (linked_tail _ _ _ L). }
  induction a as [|y a IH]; [auto|]. destruct a as [|z a].
  - cbn [app] in *. destruct m as [|h m]; [congruence|]. split; [|apply B; exact (linked_tail _ _ _ L)].
    apply H1. destruct L as [L _]. exact L.
  - cbn [app] in *. destruct L as [L1 L2]. split; auto.
Qed.

Lemma linked_mid R a x y b : linked R (a ++ x :: y :: b) -> R x y.
Proof.
  induction a as [|z a IH]; [intros [H _]; exact H|]. intros L. apply IH. exact (linked_tail _ _ _ L).
Qed.

Lemma tiles_meld m : m <> [] -> forall a b c lo hi, tiles lo (a ++ m ++ b) hi -> tiles lo (a ++ merge c m :: b) hi.
Proof.
  intros NM a b c lo hi T. apply tiles_app in T. destruct T as (k & T1 & T2). apply tiles_app in T2. destruct T2 as (j & T2 & T3).
  apply tiles_app. exists k. split; auto. pose proof (tiles_le _ _ _ T2) as LE.
  assert (SL : sl (merge c m) = k /\ sr (merge c m) = j).
  { unfold merge. cbn. split.
    - destruct m; [congruence|]. cbn in T2 |- *. tauto.
    - destruct (exists_last NM) as (m' & y & ->). rewrite last_last. apply tiles_app in T2. destruct T2 as (i & _ & T2).
      cbn in T2. tauto. }
  destruct SL as [S1 S2]. cbn [tiles]. rewrite S2. split; auto.
Qed.

Section Flat.
Context (md : mode) (tot : Z).
(* Whether resolving to R is provided for; otherwise the text and its contexts have nothing but L. *)
Context (rtl : bool).
Definition outer : Z := if m_r2l md then cR else cL.

(* Classes which may become, or are, neutral. *)
Definition ntr (c : Z) : bool := (c =? cNI) || (c =? cBRACKO) || (c =? cBRACKC) || (c =? cES) || (c =? cET) || (c =? cCS).
(* No Arabic number follows a neutral. *)
Definition an_ok (a b : scrap) : Prop := clz b = cAN -> ntr (clz a) = false.
(* A European terminator before a number is in the context of L; scraps of terminators are maximal. *)
Definition et_ok (a b : scrap) : Prop :=
  (clz a = cET -> clz b = cEN -> dcContext (sctx a) = cL) /\ ~ (clz a = cET /\ clz b = cET).
(* Nothing but L. *)
Definition only_l (s : scrap) : Prop := clz s <> cR /\ dcStrong (sctx s) <> cR /\ edir (sctx s) = cL.
Definition numbers (w : list scrap) : Prop := if rtl then linked an_ok w else Forall only_l w.

Definition base1 (s : scrap) : Prop :=
  is_class (clz s) /\ isisolate s = false /\ kids s = [] /\ edir (sctx s) = outer /\ (clz s = cEN -> dcContext (sctx s) = cL).
Definition G1 (w : list scrap) : Prop := Forall base1 w /\ linked et_ok w /\ tiles 0 w tot /\ numbers w.

Lemma forall_meld (P : scrap -> Prop) m x a b : Forall P (a ++ m ++ b) -> (Forall P m -> P x) -> Forall P (a ++ x :: b).
Proof.
  intros F H. apply Forall_app in F. destruct F as [F1 F2]. apply Forall_app in F2. destruct F2 as [F2 F3].
  apply Forall_app. split; auto.
Qed.

Lemma kids_nil (m : list scrap) : Forall (fun s => kids s = []) m -> flat_map kids m = [].
Proof. induction 1 as [|s m H _ IH]; [reflexivity|]. cbn. rewrite H, IH. reflexivity. Qed.

Lemma numbers_meld m c a b : m <> [] -> numbers (a ++ m ++ b) -> c <> cR ->
  (c = cAN -> clz (hd scrap0 m) = cAN) -> (ntr c = true -> ntr (clz (last m scrap0)) = true) ->
  numbers (a ++ merge c m :: b).
Proof.
  unfold numbers. intros NM N C1 C2 C3. destruct rtl.
  - apply (linked_meld an_ok m); auto.
    + intros y H E. apply H. auto.
    + intros y H E. specialize (H E). cbn. destruct (ntr c) eqn:X; auto. rewrite C3 in H by auto. discriminate.
  - apply (forall_meld only_l m); auto. intros F. destruct m as [|h m]; [congruence|]. inversion F as [|? ? (H1 & H2 & H3) _]; subst.
    unfold only_l, merge. cbn. auto.
Qed.

Lemma G1_rw a m b r : G1 (a ++ m ++ b) -> In r stored -> pass r = 1 -> map clz m = lhs r -> G1 (a ++ merge (target1 r) m :: b).
Proof.
  intros (F & L & T & N) I P M.
  assert (NM : m <> []) by (destruct m; [destruct r; discriminate M|discriminate]).
  split; [|split; [|split]].
  - apply (forall_meld base1 m); auto. intros FM.
    assert (KN : flat_map kids m = []) by (apply kids_nil; eapply Forall_impl; [|exact FM]; intros s (_ & _ & X & _); exact X).
    assert (EC : target1 r = cEN -> dcContext (sctx (hd scrap0 m)) = cL).
    { destruct r; try discriminate P; cbn [lhs] in M; try discriminate; intros _; inv_map; cbn [hd].
      1,2,4: inversion FM as [|? ? (_ & _ & _ & _ & X) _]; auto.
      cbn [app] in L. apply linked_mid in L. destruct L as [L _]. apply L; auto. }
    destruct m as [|h m]; [congruence|]. inversion FM as [|? ? (B1 & B2 & B3 & B4 & B5) _]; subst.
    unfold base1, merge. cbn [clz kids sctx hd] in *. rewrite KN.
    split; [destruct r; try discriminate P; split; (discriminate || reflexivity)|]. split; [destruct r; try discriminate P; reflexivity|]. auto.
  - apply (linked_meld et_ok m); auto.
    + intros y [H1 H2]. unfold et_ok, merge. cbn [clz].
      destruct r; try discriminate P; cbn [lhs target1] in *; inv_map; cbn [hd] in *;
        (split; [|intros [_ X]; discriminate]); try (intros _ X; discriminate); intros E _.
      1,2,4: apply H1; auto. exfalso. apply H2. auto.
    + intros y _. unfold et_ok, merge. cbn [clz].
      split; [intros X; destruct r; discriminate|intros [X _]; destruct r; discriminate].
  - apply tiles_meld; auto.
  - apply numbers_meld; auto.
    + destruct r; discriminate.
    + destruct r; try discriminate; cbn [lhs] in M; inv_map; auto.
    + destruct r; try discriminate P; cbn [lhs target1] in *; try discriminate; intros _; inv_map; cbn [last];
        match goal with H : clz ?s = _ |- ntr (clz ?s) = true => rewrite H end; reflexivity.
Qed.

Lemma G1_plain w : G1 w -> Forall plain_scrap w.
Proof. intros (F & _). eapply Forall_impl; [|exact F]. intros s (A & B & _ & _ & C). split; auto. Qed.

(* ---- pass 2 ---- *)
Definition K (c : Z) : Prop := c = cL \/ rtl = true /\ c = cR.
Definition initial : scrap := initialOuterScrap md true.
Definition base2 (s : scrap) : Prop :=
  is_class (clz s) /\ clz s <> cPDI /\ kids s = [] /\ edir (sctx s) = outer /\ weak (clz s) = false.
Definition G2 (w : list scrap) : Prop :=
  (exists w', w = initial :: w' /\ Forall (fun s => isisolate s = false) w') /\ Forall base2 w /\ tiles 0 w tot /\ numbers w.

Lemma G2_fine w : G2 w -> Forall (fine_scrap K) w.
Proof.
  intros (_ & F & _ & N). apply Forall_forall. intros s I. rewrite Forall_forall in F.
  destruct (F s I) as (B1 & B2 & B3 & B4 & B5). split; auto. split; auto. intros _. unfold K, se, so, numbers in *.
  destruct rtl.
  - rewrite B4. unfold outer. destruct (m_r2l md); cbn; auto.
  - rewrite Forall_forall in N. destruct (N s I) as (_ & N2 & N3). rewrite N3. split; [auto|]. intros X. exfalso. apply N2. exact X.
Qed.

Lemma head_meld m c a b w' : m <> [] -> a ++ m ++ b = initial :: w' -> Forall (fun s => isisolate s = false) w' ->
  isisolate (hd scrap0 m) = false -> isisolate (merge c m) = false ->
  exists w'', a ++ merge c m :: b = initial :: w'' /\ Forall (fun s => isisolate s = false) w''.
Proof.
  intros NM E F H1 H2. destruct a as [|y a].
  - destruct m as [|h m]; [congruence|]. cbn in E, H1. injection E as E _. rewrite E in H1.
    unfold initial, initialOuterScrap in H1. destruct (m_r2l md); discriminate.
  - cbn [app] in *. injection E as -> <-. eexists. split; [reflexivity|].
    apply (forall_meld _ m); auto.
Qed.

Lemma G2_meld a m b r : G2 (a ++ m ++ b) -> melds r -> map clz m = lhs r -> G2 (a ++ merge (target2 r) m :: b).
Proof.
  intros ((w' & E & FI) & F & T & N) R M.
  assert (NM : m <> []) by (destruct m; [destruct R as [-> | [-> | [-> | ->]]]; discriminate M|discriminate]).
  assert (HC : clz (hd scrap0 m) = target2 r /\ isisolate (hd scrap0 m) = false).
  { destruct R as [-> | [-> | [-> | ->]]]; cbn [lhs] in M; inv_map; cbn [hd target2]; unfold isisolate;
      (split; [auto|match goal with H : clz ?s = _ |- context [clz ?s] => rewrite H end; reflexivity]). }
  destruct HC as [HC HI].
  split; [|split; [|split]].
  - apply (head_meld _ _ _ _ w'); auto. destruct R as [-> | [-> | [-> | ->]]]; reflexivity.
  - apply (forall_meld base2 m); auto. intros FM.
    assert (KN : flat_map kids m = []) by (apply kids_nil; eapply Forall_impl; [|exact FM]; intros s (_ & _ & X & _); exact X).
    destruct m as [|h m]; [congruence|]. inversion FM as [|? ? (B1 & B2 & B3 & B4 & B5) _]; subst.
    unfold base2, merge. cbn [clz kids sctx hd] in *. rewrite KN, <- HC. auto.
  - apply tiles_meld; auto.
  - unfold numbers in *. destruct rtl.
    + apply (linked_meld an_ok m); auto.
      * intros y _ X. cbn in X. destruct R as [-> | [-> | [-> | ->]]]; discriminate X.
      * intros y _ X. cbn. destruct R as [-> | [-> | [-> | ->]]]; reflexivity.
    + apply (forall_meld only_l m); auto. intros FM. destruct m as [|h m]; [congruence|].
      inversion FM as [|? ? (H1 & H2 & H3) _]; subst. unfold only_l, merge. cbn [clz sctx hd] in *. rewrite <- HC. auto.
Qed.

Lemma G2_set a s b c : G2 (a ++ s :: b) -> is_neutral s ->
  (K c \/ clz s <> cNI /\ c = cNI \/ clz s = cBRACKC /\ c = cBRACKO) -> G2 (a ++ with_clz s c :: b).
Proof.
  intros ((w' & E & FI) & F & T & N) NE C.
  assert (CC : c = cL \/ rtl = true /\ c = cR \/ c = cNI \/ c = cBRACKO) by (unfold K in C; tauto).
  assert (NI : isisolate s = false) by (unfold isisolate; destruct NE as [-> | [-> | ->]]; reflexivity).
  change (a ++ s :: b) with (a ++ [s] ++ b) in *. rewrite <- merge_one.
  split; [|split; [|split]].
  - apply (head_meld _ _ _ _ w'); auto; [discriminate|]. unfold isisolate, merge. cbn.
    destruct CC as [-> | [[_ ->] | [-> | ->]]]; reflexivity.
  - apply (forall_meld base2 [s]); auto. intros FM. inversion FM as [|? ? (B1 & B2 & B3 & B4 & B5) _]; subst.
    unfold base2, merge. cbn. rewrite B3. cbn.
    destruct CC as [-> | [[_ ->] | [-> | ->]]]; (split; [split; (discriminate || reflexivity)|]; split; [discriminate|auto]).
  - apply tiles_meld; auto. discriminate.
  - unfold numbers in *. destruct rtl.
    + apply (linked_meld an_ok [s]); auto; [discriminate| |].
      * intros y _ X. cbn in X. destruct CC as [-> | [[_ ->] | [-> | ->]]]; discriminate X.
      * intros y H X. specialize (H X). cbn [last] in H. exfalso. unfold ntr in H. destruct NE as [E1 | [E1 | E1]]; rewrite E1 in H; discriminate.
    + apply (forall_meld only_l [s]); auto. intros FM. inversion FM as [|? ? (H1 & H2 & H3) _]; subst.
      unfold only_l, merge. cbn. split; auto. destruct CC as [-> | [[X _] | [-> | ->]]]; discriminate.
Qed.

Lemma G2_harm a m b r : G2 (a ++ m ++ b) -> harmful r -> map clz m <> lhs r.
Proof.
  intros (_ & F & _ & N) R M.
  assert (FM : Forall base2 m) by (apply Forall_app in F; destruct F as [_ F]; apply Forall_app in F; tauto).
  destruct R as [-> | R].
  - cbn [lhs] in M. inv_map. unfold numbers in N. destruct rtl.
    + cbn [app] in N.
      assert (X : an_ok s0 s1).
      { change (a ++ s :: s0 :: s1 :: b) with (a ++ [s] ++ s0 :: s1 :: b) in N. rewrite app_assoc in N. apply (linked_mid _ _ _ _ _ N). }
      specialize (X ltac:(assumption)). unfold ntr in X. rewrite H0 in X. discriminate.
    + apply Forall_app in N. destruct N as [_ N]. inversion N as [|? ? (X & _) _]; subst. auto.
  - assert (EN : exists s, In s m /\ clz s = cEN).
    { destruct R as [-> | [-> | ->]]; cbn [lhs] in M; inv_map.
      1,2: exists s1; split; [right; right; left; auto|auto]. exists s. split; [left; auto|auto]. }
    destruct EN as (s & I & E). rewrite Forall_forall in FM. destruct (FM s I) as (_ & _ & _ & _ & W). rewrite E in W. discriminate.
Qed.

Lemma bracket_set a s b c : G2 (a ++ s :: b) -> isbracket s = true ->
  (K c \/ c = cNI \/ clz s = cBRACKC /\ c = cBRACKO) -> G2 (a ++ with_clz s c :: b).
Proof.
  intros GG BR C. unfold isbracket in BR. apply orb_true_iff in BR. rewrite !Z.eqb_eq in BR.
  assert (NE : is_neutral s) by (unfold is_neutral; tauto). apply G2_set; auto.
  destruct C as [C|[C|C]]; auto. right. left. split; auto. destruct BR as [-> | ->]; discriminate.
Qed.

(* ---- from pass 1 to pass 2 ---- *)
Lemma initial_fields : kids initial = [] /\ sl initial = 0 /\ sr initial = 0 /\ edir (sctx initial) = outer /\
  strong (sctx initial) = cL /\ isisolate initial = true /\ (clz initial = cLRI \/ clz initial = cRLI).
Proof. unfold initial, initialOuterScrap, outer. destruct (m_r2l md); cbn; auto 10. Qed.

Lemma G2_start w : G1 w -> Forall (fun s => weak (clz s) = false) w -> (rtl = false -> m_r2l md = false) -> G2 (initial :: w).
Proof.
  intros (F & L & T & N) W LR. destruct initial_fields as (I1 & I2 & I3 & I4 & I5 & I6 & I7).
  split; [|split; [|split]].
  - exists w. split; auto. eapply Forall_impl; [|exact F]. intros s (_ & X & _). exact X.
  - constructor.
    + split; [destruct I7 as [-> | ->]; split; (discriminate || reflexivity)|]. split; [destruct I7 as [-> | ->]; discriminate|].
      split; auto. split; auto. destruct I7 as [-> | ->]; reflexivity.
    + rewrite Forall_forall in *. intros s I. destruct (F s I) as (A & B & C & D & _). split; auto. split; [|auto].
      intros X. unfold isisolate in B. rewrite X in B. discriminate.
  - cbn [tiles]. rewrite I2, I3. split; auto. split; [lia|]. exact T.
  - unfold numbers in *. destruct rtl.
    + destruct w as [|s w]; [exact I|]. split; auto. intros _. destruct I7 as [-> | ->]; reflexivity.
    + constructor; auto. unfold only_l, dcStrong. rewrite I5, I4. unfold outer. rewrite (LR eq_refl).
      split; [destruct I7 as [-> | ->]; discriminate|]. split; [discriminate|reflexivity].
Qed.

Lemma weight_le f k l : (forall s, (f s <= k)%nat) -> (weight f l <= k * length l)%nat.
Proof. intros H. induction l as [|s l IH]; cbn; [lia|]. specialize (H s). unfold weight in IH. lia. Qed.
Lemma wt1_le s : (wt1 s <= 2)%nat.
Proof. unfold wt1. destruct (weak _); lia. Qed.
Lemma wt2_le s : (wt2 s <= 4)%nat.
Proof. unfold wt2. destruct (_ =? _); [lia|]. destruct (_ =? _); [lia|]. destruct (_ =? _); lia. Qed.
Lemma weight_ge f l : (forall s, (1 <= f s)%nat) -> (length l <= weight f l)%nat.
Proof. intros H. induction l as [|s l IH]; cbn; [lia|]. specialize (H s). unfold weight in IH. lia. Qed.

(* The bound on the number of rounds. *)
Definition rounds (l : nat) : nat := (16 * (l + 2) * (l + 2))%nat.

(* The result: the scraps tile the text, between an opening and a closing isolate of length zero. *)
Definition resolved (lv : levels) : Prop :=
  lv_emb lv = (if m_r2l md then R2L else L2R) /\
  (exists body, lv_scraps lv = initial :: body ++ [mks cPDI tot tot dc0 []] /\
     Forall (fun s => is_class (clz s) /\ isisolate s = false /\ weak (clz s) = false) body) /\
  tiles 0 (lv_scraps lv) tot /\ flat (lv_scraps lv).

Section Levels.
Context {store : Type} (findBr : store -> scrap -> option scrap * store) (changeBr : store -> scrap -> store).

Lemma meld_length (a m b : list scrap) x k : m <> [] -> (length (a ++ m ++ b) <= k -> length (a ++ x :: b) <= k)%nat.
Proof. intros NM. rewrite !app_length. cbn [length]. destruct m; [congruence|]. cbn [length]. lia. Qed.

Lemma parseIRS_eq tr tab n startIRS (p : pst store) : parseIRS tr tab findBr changeBr (S n) startIRS p =
  let p := with_depth p (S (p_depth p)) in
  let p := with_sp p (S startIRS) in
  let '(_, ok, p) := read 3 p in
  let* (ok, p) := if ok then pass1_loop tr tab findBr changeBr n (S startIRS) false None p else Ok (false, p) in
  let* p := if ok || (p_depth p =? 1)%nat then pass2 tr tab findBr changeBr n startIRS (with_sp p startIRS) else Ok p in
  let runlen := (p_sp p - startIRS)%nat in
  let* result :=
    if ok && (1 <? p_depth p)%nat then
      let* f := lift (nth_error (p_stack p) startIRS) in
      let* e := lift (nth_error (p_stack p) (startIRS + runlen - 1)) in
      Ok [mks cNI (sl f) (sr e) dc0 [firstn runlen (skipn startIRS (p_stack p))]]
    else Ok (skipn startIRS (p_stack p)) in
  Ok (result, runlen, ok, with_depth p (p_depth p - 1)).
Proof. reflexivity. Qed.

(* More that is kept by the two passes, of the scraps before and after the stack pointer, and in the
   second pass also of the store, which is [b0] at its beginning. *)
Section Gen.
Context (b0 : store) (Y1 : list scrap -> list scrap -> Prop) (Y2 : store -> list scrap -> list scrap -> Prop).
Context (Y1_rw : forall a m b r, G1 (a ++ m ++ b) -> Y1 a (m ++ b) -> In r stored -> pass r = 1 -> map clz m = lhs r ->
  Forall (fun s => weak (clz s) = false) a -> (lhsLen r = 1%nat -> no_long (m ++ b)) ->
  Y1 (firstn (length a - back r) a) (skipn (length a - back r) a ++ merge (target1 r) m :: b)).
Context (Y1_step : forall a s b, G1 (a ++ s :: b) -> Y1 a (s :: b) -> weak (clz s) = false ->
  Forall (fun s => weak (clz s) = false) a -> no_long (s :: b) -> Y1 (a ++ [s]) b).
Context (Y12 : forall w, G1 w -> Y1 w [] -> Forall (fun s => weak (clz s) = false) w -> Y2 b0 [] (initial :: w)).
Context (Y2_meld : forall st a m b r, G2 (a ++ m ++ b) -> Y2 st a (m ++ b) -> melds r -> map clz m = lhs r ->
  Y2 st a (merge (target2 r) m :: b)).
Context (Y2_N2 : forall st a s b, G2 (a ++ s :: b) -> Y2 st a (s :: b) -> clz s = cNI -> K (se s) ->
  Y2 st (firstn (length a - 1) a) (skipn (length a - 1) a ++ with_clz s (se s) :: b)).
Context (Y2_step : forall st a s b, G2 (a ++ s :: b) -> Y2 st a (s :: b) -> clz s <> cNI -> isbracket s = false -> no_meld (s :: b) -> Y2 st (a ++ [s]) b).
Context (Y2_bracket : forall st a s b c jmp st', G2 (a ++ s :: b) -> Y2 st a (s :: b) -> isbracket s = true ->
  n0_at findBr changeBr st s = (c, jmp, st') ->
  (c = clz s /\ jmp = 1 /\ Y2 st' (a ++ [s]) b) \/
  ((K c \/ c = cNI \/ clz s = cBRACKC /\ c = cBRACKO) /\ jmp <= 1 /\
     forall u v, u ++ v = a ++ with_clz s c :: b -> length u = jump 0 (length a) jmp -> Y2 st' u v)).

Theorem resolve_flat_gen ss stp extra n : G1 ss -> Y1 [] ss -> (rtl = false -> m_r2l md = false) ->
  Forall (fun s => clz s <> cNULL) ss -> clz stp = cNULL -> (rounds (length ss) <= n)%nat ->
  exists lv, ResolveLevels the_trie the_tab findBr changeBr n md (ss ++ stp :: extra) b0 = Ok (lv, extra) /\ resolved lv /\
    exists w, lv_scraps lv = w ++ [mks cPDI tot tot dc0 []] /\ exists st, Y2 st w [].
Proof.
  intros GG YY LR NN SN FU. unfold ResolveLevels. fold initial. unfold rounds in FU.
  destruct n as [|n]; [lia|]. rewrite parseIRS_eq. cbv zeta.
  unfold with_depth, with_sp. cbn [p_stack p_sp p_eof p_pipe p_depth p_store].
  set (p0 := mkp [initial] 1 false (ss ++ stp :: extra) 1 b0).
  assert (R0 : reading p0 ss extra) by (split; [exact NN|]; cbn; eauto).
  destruct (read_loop_spec 3 p0 ss extra R0 eq_refl) as (k & p1 & E1 & S1 & P1 & D1 & B1 & R1 & _).
  unfold read. cbn [Nat.eqb p_eof p0 orb]. fold p0. rewrite E1.
  set (L := length ss) in *.
  destruct (pass1_flat findBr changeBr (fun u v => (G1 (u ++ v) /\ (length (u ++ v) <= L)%nat) /\ Y1 u v)
    ltac:(intros a m c r [[X1 X2] X3] I P M NW NL; split; [|apply Y1_rw; auto];
            rewrite app_assoc, firstn_skipn; split; [apply G1_rw; auto|apply (meld_length a m); auto;
            destruct m; [destruct r; discriminate M|discriminate]])
    ltac:(intros a x c [[X1 X2] X3] W NW NL; split; [|apply Y1_step; auto]; rewrite <- app_assoc; auto)
    ltac:(intros u v [[X _] _]; apply G1_plain; exact X)
    n L [initial] [] (firstn 3 ss) (skipn 3 ss) extra false None p1) as (p2 & E2 & w & S2 & P2 & F2 & I2 & D2 & B2 & ((G2' & L2) & Y2') & W2).
  { rewrite S1. reflexivity. }
  { rewrite P1. reflexivity. }
  { exact R1. }
  { cbn [app]. rewrite firstn_skipn. split; [split; auto|exact YY]. }
  { constructor. }
  { discriminate. }
  { cbn [app]. rewrite firstn_skipn. auto. }
  { cbn [app]. rewrite firstn_skipn. unfold fuel1. pose proof (weight_le wt1 2 ss wt1_le) as X. fold L in X |- *. nia. }
  change (length [initial]) with 1%nat in E2. rewrite E2. cbn [rbind orb].
  rewrite D2, D1. cbn [p_depth p0 Nat.eqb Nat.ltb Nat.leb andb].
  rewrite app_nil_r in G2', L2.
  pose proof (G2_start w G2' W2 LR) as G0. pose proof (Y12 w G2' Y2' W2) as Y0.
  destruct (pass2_gen findBr changeBr K (fun st u v => (G2 (u ++ v) /\ (length (u ++ v) <= S L)%nat) /\ Y2 st u v)
    ltac:(intros c [X | [_ X]]; auto)
    ltac:(intros st a m c r [[X1 X2] X3] I M; split; [|apply Y2_meld; auto];
            split; [apply G2_meld; auto|apply (meld_length a m); auto;
            destruct m; [destruct I as [-> | [-> | [-> | ->]]]; discriminate M|discriminate]])
    ltac:(intros st a s c [[X1 X2] X3] I M; split; [|apply Y2_N2; auto]; rewrite app_assoc, firstn_skipn;
            split; [apply G2_set; auto; left; exact I|apply (meld_length a [s]); auto; discriminate])
    ltac:(intros st a s c [[X1 X2] X3] I BF M; split; [|apply Y2_step; auto]; rewrite <- app_assoc; auto)
    ltac:(intros st a s c d jmp st' [[X1 X2] X3] BR EN; destruct (Y2_bracket st a s c d jmp st' X1 X3 BR EN) as [(-> & -> & Y)|(KC & JJ & Y)];
            [left; split; [reflexivity|]; split; [reflexivity|]; split; [rewrite <- app_assoc; auto|exact Y]
            |right; split; [apply (wt2_set K ltac:(intros ? [X | [_ X]]; auto)); auto|]; split; [exact JJ|];
             intros u v E J; split; [rewrite E; split; [apply bracket_set; auto|apply (meld_length a [s]); auto; discriminate]|apply Y; auto]])
    ltac:(intros st u v [[X _] _]; apply G2_fine; exact X)
    ltac:(intros st a m c r [[X _] _]; apply (G2_harm a m c r); exact X)
    n (S L) [] (initial :: w) (mkp (p_stack p2) 0 (p_eof p2) (p_pipe p2) 1 (p_store p2)))
    as (p3 & E3 & P3 & F3 & I3 & D3 & (G3 & L3) & Y3).
  { cbn. rewrite S2. reflexivity. }
  { reflexivity. }
  { cbn [app length]. rewrite B2, B1; split; [split; [exact G0|lia]|exact Y0]. }
  { cbn [app length]. lia. }
  { cbn [app]. unfold fuel2. pose proof (weight_le wt2 4 (initial :: w) wt2_le) as X. cbn [length] in *. nia. }
  match goal with |- context [Resolver.pass2 _ _ _ _ n 0 ?q] =>
    replace q with (mkp (p_stack p2) 0 (p_eof p2) (p_pipe p2) 1 (p_store p2)) end.
  2:{ rewrite ?D2, ?D1. reflexivity. }
  rewrite E3. cbn [rbind skipn]. rewrite D3. cbn [p_depth Nat.ltb Nat.leb andb rbind p_pipe p_stack].
  rewrite app_nil_r in G3. destruct G3 as ((w' & EW & FW) & FB & FT & _).
  assert (ZL : zget (p_stack p3) (zlen (p_stack p3) - 1) = Some (last (p_stack p3) scrap0)).
  { rewrite EW. destruct (exists_last (l := initial :: w')) as (u & x & EX); [discriminate|].
    rewrite EX, last_last. apply zget_last_app. }
  rewrite ZL. cbn [lift rbind].
  assert (EL : sr (last (p_stack p3) scrap0) = tot).
  { rewrite EW in *. destruct (exists_last (l := initial :: w')) as (u & x & EX); [discriminate|]. rewrite EX in FT |- *.
    rewrite last_last. apply tiles_app in FT. destruct FT as (j & _ & FT). cbn in FT. tauto. }
  rewrite EL. eexists. split; [rewrite I3; cbn [p_pipe]; rewrite I2; reflexivity|].
  split; [|exists (p_stack p3); split; [reflexivity|exists (p_store p3); exact Y3]].
  unfold resolved. cbn [lv_emb lv_scraps]. split; [unfold initial, initialOuterScrap; destruct (m_r2l md); reflexivity|].
  split; [|split].
  - exists w'. rewrite EW. split; [reflexivity|]. rewrite EW in FB. inversion FB as [|? ? _ FB']; subst.
    rewrite Forall_forall in *. intros s I. destruct (FB' s I) as (X1 & X2 & X3 & X4 & X5). auto.
  - apply tiles_app. exists tot. split; [exact FT|]. cbn. lia.
  - apply Forall_app. split; [eapply Forall_impl; [|exact FB]; intros s (_ & _ & X & _); exact X|].
    constructor; [reflexivity|constructor].
Qed.
End Gen.

(* Brackets with any outcome, the store keeping an invariant of its own. *)
Section Any.
Context (SI : store -> Prop).
Context (find_ok : forall b s a b', SI b -> findBr b s = (a, b') -> SI b' /\
  (clz s = cBRACKC -> forall o, a = Some o -> K (clz o) \/ clz o = cNI \/ clz o = cBRACKO)).
Context (change_ok : forall b s, SI b -> K (clz s) \/ clz s = cNI -> SI (changeBr b s)).
Section More.
Context (Y1 Y2 : list scrap -> list scrap -> Prop).
Context (Y1_rw : forall a m b r, G1 (a ++ m ++ b) -> Y1 a (m ++ b) -> In r stored -> pass r = 1 -> map clz m = lhs r ->
  Forall (fun s => weak (clz s) = false) a -> (lhsLen r = 1%nat -> no_long (m ++ b)) ->
  Y1 (firstn (length a - back r) a) (skipn (length a - back r) a ++ merge (target1 r) m :: b)).
Context (Y1_step : forall a s b, G1 (a ++ s :: b) -> Y1 a (s :: b) -> weak (clz s) = false ->
  Forall (fun s => weak (clz s) = false) a -> no_long (s :: b) -> Y1 (a ++ [s]) b).
Context (Y12 : forall w, G1 w -> Y1 w [] -> Forall (fun s => weak (clz s) = false) w -> Y2 [] (initial :: w)).
Context (Y2_meld : forall a m b r, G2 (a ++ m ++ b) -> Y2 a (m ++ b) -> melds r -> map clz m = lhs r ->
  Y2 a (merge (target2 r) m :: b)).
Context (Y2_N2 : forall a s b, G2 (a ++ s :: b) -> Y2 a (s :: b) -> clz s = cNI -> K (se s) ->
  Y2 (firstn (length a - 1) a) (skipn (length a - 1) a ++ with_clz s (se s) :: b)).
Context (Y2_step : forall a s b, G2 (a ++ s :: b) -> Y2 a (s :: b) -> clz s <> cNI -> no_meld (s :: b) -> Y2 (a ++ [s]) b).
Context (Y2_set : forall a s b c, G2 (a ++ s :: b) -> Y2 a (s :: b) -> isbracket s = true ->
  (K c \/ c = cNI \/ clz s = cBRACKC /\ c = cBRACKO) ->
  forall u v, u ++ v = a ++ with_clz s c :: b -> Y2 u v).

Theorem resolve_flat_more ss stp extra (b : store) n : G1 ss -> Y1 [] ss -> (rtl = false -> m_r2l md = false) -> SI b ->
  Forall (fun s => clz s <> cNULL) ss -> clz stp = cNULL -> (rounds (length ss) <= n)%nat ->
  exists lv, ResolveLevels the_trie the_tab findBr changeBr n md (ss ++ stp :: extra) b = Ok (lv, extra) /\ resolved lv /\
    exists w, lv_scraps lv = w ++ [mks cPDI tot tot dc0 []] /\ Y2 w [].
Proof.
  intros GG YY LR SB NN SN FU.
  destruct (resolve_flat_gen b Y1 (fun st u v => Y2 u v /\ SI st)) with (ss := ss) (stp := stp) (extra := extra) (n := n)
    as (lv & E & R & w & EW & st & Y & _); auto.
  - intros st a m c r X [Y S] R M. split; auto.
  - intros st a s c X [Y S] I KS. split; auto.
  - intros st a s c X [Y S] I BF M. split; auto.
  - intros st a s c d jmp st' X [Y S] BR EN.
    destruct (bracket_any findBr changeBr K SI (fun u v => G2 (u ++ v) /\ Y2 u v) find_ok change_ok) with (st := st) (a := a) (s := s) (b := c) (c := d) (jmp := jmp) (st' := st') as [(E1 & E2 & (_ & E3) & E4)|(KC & JJ & Q)]; auto.
    + intros a0 s0 b1 [Z1 Z2] Z3 Z4. split; [rewrite <- app_assoc; exact Z1|auto].
    + intros a0 s0 b1 c0 [Z1 Z2] Z3 Z4 u v EU. split; [rewrite EU; apply bracket_set; auto|eapply Y2_set; eauto].
    + intros a0 b1 [Z1 _]. apply G2_fine. exact Z1.
    + right. split; auto. split; auto. intros u v EU LU. destruct (Q u v EU LU) as [[_ Q1] Q2]. auto.
  - exists lv. split; auto. split; auto. exists w. auto.
Qed.
End More.

Theorem resolve_flat ss stp extra (b : store) n : G1 ss -> (rtl = false -> m_r2l md = false) -> SI b ->
  Forall (fun s => clz s <> cNULL) ss -> clz stp = cNULL -> (rounds (length ss) <= n)%nat ->
  exists lv, ResolveLevels the_trie the_tab findBr changeBr n md (ss ++ stp :: extra) b = Ok (lv, extra) /\ resolved lv.
Proof.
  intros GG LR SB NN SN FU.
  destruct (resolve_flat_more (fun _ _ => True) (fun _ _ => True)) with (ss := ss) (stp := stp) (extra := extra) (b := b) (n := n)
    as (lv & E & R & _); auto. exists lv. auto.
Qed.
End Any.
End Levels.
End Flat.
