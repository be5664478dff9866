(* ResolverProofs.v -- the two passes of the bidi parser on texts without isolates: they terminate,
   and what they leave on the stack tiles the text. *)
From Coq Require Import List ZArith Lia Bool.
From Verif Require Import Base Scrap Brackets Trie Rules RuleProofs Reorder ReorderSpec SplitProofs Scanner ScannerProofs Resolver.
Import ListNotations.
Open Scope Z_scope.

(* ---- rules ---- *)

(* Scraps melded into one, of class c. *)
Definition merge (c : Z) (m : list scrap) : scrap :=
  let f := hd scrap0 m in mks c (sl f) (sr (last m scrap0)) (sctx f) (flat_map kids m).

(* The class that a rule of the first pass produces. *)
Definition target1 (r : rule) : Z :=
  match r with
  | W4_1 | W4_2 | W5_1 | W5_2 => cEN
  | W4_3 => cAN
  | W7 => cL
  | _ => cNI
  end.

(* The class that a melding rule of the second pass produces. *)
Definition target2 (r : rule) : Z := match r with RR | N1_2 => cR | _ => cL end.

Lemma merge_one c s : merge c [s] = with_clz s c.
Proof. unfold merge, with_clz. cbn. rewrite app_nil_r. reflexivity. Qed.

Ltac inv_map :=
  repeat match goal with
  | H : map clz ?m = _ :: _ |- _ => destruct m; [discriminate H|]; cbn [map] in H; injection H as ? H
  | H : map clz ?m = [] |- _ => apply map_eq_nil in H; subst m
  end.

(* How far a rule of the first pass goes back. *)
Definition back (r : rule) : nat := match r with W6_1 | W6_2 | W6_3 | W7 => 0 | W6x => 1 | _ => 2 end.

Lemma action1 r m rest : In r stored -> pass r = 1 -> map clz m = lhs r ->
  (r = W7 -> dcContext (sctx (hd scrap0 m)) = cL) ->
  exists nl, action r (m ++ rest) = Some ([merge (target1 r) m], - Z.of_nat (back r), nl).
Proof.
  intros I P M C. destruct r; try discriminate P; cbn [lhs] in M; inv_map;
    try (eexists; reflexivity).
  specialize (C eq_refl). cbn [hd] in C. unfold action. cbn [nth_error app obind]. rewrite C. cbn [cL Z.eqb].
  exists true. rewrite merge_one. reflexivity.
Qed.

(* No rule of the first pass with two or more symbols applies. *)
Definition no_long (w : list scrap) : Prop :=
  forall r m v, In r stored -> pass r = 1 -> (2 <= lhsLen r)%nat -> w = m ++ v -> map clz m <> lhs r.

(* What is found at the beginning of a left-hand side of pass 1. *)
Lemma long_first r v : In r stored -> pass r = 1 -> (2 <= lhsLen r)%nat -> long_rule stored (lhs r ++ v) = Some r.
Proof.
  intros I P L. destruct r; try discriminate P; try (cbn in L; lia); destruct v; reflexivity.
Qed.

Lemma no_long_found w pend : (match long_rule stored (map clz w) with Some r => if 1 <? pass r then None else Some r | None => None end) = None ->
  (3 <= length w)%nat \/ pend = [] -> no_long (w ++ pend).
Proof.
  intros H L r m v I P L2 E M.
  assert (LM : length m = lhsLen r) by (unfold lhsLen; rewrite <- M, map_length; reflexivity).
  assert (L3 : (lhsLen r <= 3)%nat) by (destruct r; cbn; lia).
  assert (X : exists v', w = m ++ v').
  { destruct L as [L| ->]; [|rewrite app_nil_r in E; eauto]. exists (skipn (length m) w).
    assert (Y : firstn (length m) w = m).
    { apply (f_equal (firstn (length m))) in E. rewrite !firstn_app, firstn_all, Nat.sub_diag in E. cbn [firstn] in E.
      rewrite app_nil_r in E. replace (length m - length w)%nat with 0%nat in E by lia. cbn [firstn] in E. rewrite app_nil_r in E. exact E. }
    rewrite <- Y at 1. symmetry. apply firstn_skipn. }
  destruct X as [v' ->]. rewrite map_app, M, (long_first r _ I P L2), P in H. discriminate.
Qed.

(* The rules of the second pass other than N1-3, N1-4, N1-7 and N1-10. *)
Definition melds (r : rule) : Prop := r = LL \/ r = RR \/ r = N1_1 \/ r = N1_2.

Lemma action2 r m rest : melds r -> map clz m = lhs r ->
  exists nl, action r (m ++ rest) = Some ([merge (target2 r) m], 0, nl).
Proof.
  intros [->|[->|[->| ->]]] M; cbn [lhs] in M; inv_map; eexists; reflexivity.
Qed.

Lemma action_N2 m rest : map clz m = lhs N2 ->
  exists nl, action N2 (m ++ rest) = Some ([merge (se (hd scrap0 m)) m], -1, nl).
Proof. intros M. cbn [lhs] in M. inv_map. eexists. rewrite merge_one. reflexivity. Qed.

Lemma leqb_prefix a b : leqb a b = true -> a = b.
Proof. apply leqb_eq. Qed.

Lemma prefix_split {A} (f : A -> Z) : forall l w, prefixb l (map f w) = true -> exists m v, w = m ++ v /\ map f m = l.
Proof.
  induction l as [|x l IH]; intros w H; [exists [], w; auto|].
  destruct w as [|y w]; [discriminate|]. cbn in H. apply andb_true_iff in H. destruct H as [H1 H2].
  apply Z.eqb_eq in H1. destruct (IH _ H2) as (m & v & -> & E). exists (y :: m), v. split; auto. cbn. congruence.
Qed.

Lemma long_found w r : long_rule stored (map clz w) = Some r ->
  In r stored /\ exists m v, w = m ++ v /\ map clz m = lhs r.
Proof.
  intros H. apply find_some in H. destruct H as [I H]. apply andb_true_iff in H. destruct H as [_ H].
  split; auto. apply prefix_split. exact H.
Qed.

Lemma short_found w r : rule_for stored (firstn 1 (map clz w)) = Some r ->
  In r stored /\ exists m v, w = m ++ v /\ map clz m = lhs r.
Proof.
  intros H. apply find_some in H. destruct H as [I H]. split; auto. apply leqb_eq in H.
  destruct w as [|s w]; cbn in H.
  - exists [], []. split; auto.
  - exists [s], w. split; auto.
Qed.

(* The rules for a single scrap. *)
Definition short_of (c : Z) : option rule :=
  if c =? cET then Some W6_1 else if c =? cES then Some W6_2 else if c =? cCS then Some W6_3
  else if c =? cEN then Some W7 else if c =? cNI then Some N2 else None.
Lemma short_spec c : is_class c -> rule_for stored [c] = short_of c.
Proof.
  intros I. assert (X : forallb (fun c => orule_eqb (rule_for stored [c]) (short_of c)) classes = true) by (vm_compute; reflexivity).
  rewrite forallb_forall in X. apply orule_eqb_eq. apply X, class_in, I.
Qed.

Section Parser.
Context {store : Type} (findBr : store -> scrap -> option scrap * store) (changeBr : store -> scrap -> store).
Notation pst := (pst store).
Notation apply_rule := (@apply_rule store).
Notation pass1_loop := (pass1_loop the_trie the_tab findBr changeBr).
Notation pass2 := (pass2 the_trie the_tab findBr changeBr).

(* ---- applying a melding rule ---- *)
Lemma apply_meld (p : pst) r u m v x jmp nl start lo :
  p_stack p = u ++ m ++ v -> p_sp p = length u -> m <> [] -> length m = lhsLen r -> (start <= S (length u))%nat ->
  action r (m ++ v) = Some ([x], jmp, nl) ->
  apply_rule p r start lo = Ok (with_sp (with_stack p (u ++ x :: v)) (jump lo (length u) jmp)).
Proof.
  intros ES EP NM LM ST A. unfold Resolver.apply_rule, tail_at. rewrite ES, EP.
  assert (L : length (u ++ m ++ v) = (length u + length m + length v)%nat) by (rewrite !app_length; lia).
  destruct (Nat.leb_spec (length u) (length (u ++ m ++ v))) as [_|X]; [|lia]. cbn [lift rbind].
  rewrite skipn_app, skipn_all, Nat.sub_diag. cbn [skipn app]. rewrite A. cbn [lift rbind].
  unfold reduce, overwrite. rewrite ES, EP. cbn [length].
  assert (M1 : (1 <= length m)%nat) by (destruct m; [congruence|cbn; lia]).
  destruct (Nat.leb_spec (length u + 1) (length (u ++ m ++ v))) as [_|X]; [|lia]. cbn [obind].
  set (st := firstn (length u) (u ++ m ++ v) ++ [x] ++ skipn (length u + 1) (u ++ m ++ v)).
  assert (E1 : st = u ++ x :: tl m ++ v).
  { unfold st. rewrite firstn_app, firstn_all, Nat.sub_diag. cbn [firstn]. rewrite app_nil_r.
    rewrite skipn_app, skipn_all2 by lia. replace (length u + 1 - length u)%nat with 1%nat by lia.
    destruct m; [congruence|]. reflexivity. }
  assert (LS : length st = length (u ++ m ++ v)).
  { rewrite E1, L, app_length. cbn [length]. rewrite app_length. destruct m; [congruence|]. cbn [tl length]. lia. }
  replace (Nat.max start (length u + 1)) with (S (length u)) by lia. rewrite <- LM.
  set (from := (_ - _)%Z).
  assert (FR : Z.to_nat from = (length u + length m)%nat /\ from = Z.of_nat (length u + length m)) by (unfold from; lia).
  destruct FR as [F1 F2].
  destruct (Nat.leb_spec (S (length u)) (length st)) as [_|X]; [|lia].
  destruct (Z.leb_spec 0 from) as [_|X]; [|lia].
  destruct (Z.leb_spec from (zlen st)) as [_|X]; [|unfold zlen in X; lia]. cbn [andb lift rbind].
  rewrite F1. f_equal.
  assert (E2 : firstn (S (length u)) st ++ skipn (length u + length m) st = u ++ x :: v).
  { rewrite E1. rewrite firstn_app, firstn_all2 by lia. replace (S (length u) - length u)%nat with 1%nat by lia.
    cbn [firstn]. rewrite skipn_app, skipn_all2 by lia. replace (length u + length m - length u)%nat with (length m) by lia.
    destruct m as [|y m]; [congruence|]. cbn [length skipn tl app].
    rewrite skipn_app, skipn_all, Nat.sub_diag. cbn [skipn app]. rewrite <- app_assoc. reflexivity. }
  rewrite E2. cbn [with_stack p_sp]. rewrite EP. reflexivity.
Qed.

Lemma match_spec_at (p : pst) u w minlen : p_stack p = u ++ w -> p_sp p = length u ->
  Forall (fun s => is_class (clz s)) w -> minlen <= 2 ->
  match_at the_trie the_tab p minlen = Ok (long_rule stored (map clz w), rule_for stored (firstn 1 (map clz w))).
Proof.
  intros ES EP F L. unfold match_at, tail_at. rewrite ES, EP.
  destruct (Nat.leb_spec (length u) (length (u ++ w))) as [_|X]; [|rewrite app_length in X; lia]. cbn [lift rbind].
  rewrite skipn_app, skipn_all, Nat.sub_diag. cbn [skipn app]. apply match_spec; auto.
  apply Forall_map. exact F.
Qed.

(* ---- reading ---- *)
(* The scraps still to come are [pend]; then the end marker, and [extra] after it. *)
Definition reading (p : pst) (pend extra : list scrap) : Prop :=
  Forall (fun s => clz s <> cNULL) pend /\
    if p_eof p then pend = [] /\ p_pipe p = extra
  else exists stp, clz stp = cNULL /\ p_pipe p = pend ++ stp :: extra.

Lemma read_loop_spec : forall n (p : pst) pend extra, reading p pend extra -> p_eof p = false ->
  exists k p', read_loop n p = (k, p') /\ p_stack p' = p_stack p ++ firstn n pend /\ p_sp p' = p_sp p /\
    p_depth p' = p_depth p /\ p_store p' = p_store p /\ reading p' (skipn n pend) extra /\
    ((n <= length pend)%nat \/ p_eof p' = true).
Proof.
  induction n as [|n IH]; intros p pend extra [N R] E.
  - exists O, p. cbn. rewrite app_nil_r. unfold reading. rewrite E in *. split; auto. do 4 (split; auto). split; [auto|lia].
  - pose proof R as R0. rewrite E in R. destruct R as (stp & S1 & S2). destruct pend as [|s t].
    + cbn [read_loop]. rewrite S2. cbn [receive app]. rewrite S1. cbn [cNULL Z.eqb Pos.eqb].
      eexists O, _. split; [reflexivity|]. cbn [p_stack p_sp p_depth p_store p_eof firstn skipn]. rewrite app_nil_r.
      do 4 (split; auto). split; [|auto]. split; [constructor|]. cbn. auto.
    + inversion N as [|? ? N1 N2]; subst. cbn [read_loop]. rewrite S2. cbn [receive app].
      destruct (Z.eqb_spec (clz s) cNULL) as [X|_]; [congruence|].
      destruct (IH (mkp (p_stack p ++ [s]) (p_sp p) (p_eof p) (t ++ stp :: extra) (p_depth p) (p_store p)) t extra)
        as (k & p' & -> & P1 & P2 & P3 & P4 & P5 & P6).
      * split; auto. cbn [p_eof p_pipe]. rewrite E. eauto.
      * exact E.
      * exists (S k), p'. split; [reflexivity|]. cbn [p_stack p_sp p_depth p_store] in *. rewrite P1, <- app_assoc.
        cbn [firstn skipn app length]. do 5 (split; auto). destruct P6; [left; lia|auto].
Qed.

Lemma fill_spec (p : pst) u post pend extra : p_stack p = u ++ post -> p_sp p = length u -> reading p pend extra ->
  exists ex pend', pend = ex ++ pend' /\ p_stack (fill p) = u ++ post ++ ex /\ p_sp (fill p) = length u /\
    reading (fill p) pend' extra /\ p_depth (fill p) = p_depth p /\ p_store (fill p) = p_store p /\
    (post ++ ex = [] -> p_eof (fill p) = true) /\
    ((3 <= length post)%nat \/ pend = [] -> ex = []) /\ ((3 <= length (post ++ ex))%nat \/ pend' = []).
Proof.
  intros ES EP R. unfold fill, read.
  assert (NR : forall b : bool, b = true -> (3 + p_sp p - length (p_stack p) =? 0)%nat || p_eof p = b ->
    exists ex pend', pend = ex ++ pend' /\ p_stack p = u ++ post ++ ex /\ p_sp p = length u /\
    reading p pend' extra /\ p_depth p = p_depth p /\ p_store p = p_store p /\ (post ++ ex = [] -> p_eof p = true) /\
    ((3 <= length post)%nat \/ pend = [] -> ex = []) /\ ((3 <= length (post ++ ex))%nat \/ pend' = [])).
  { intros b Hb H. rewrite Hb in H. exists [], pend. rewrite app_nil_r. do 6 (split; auto).
    apply orb_true_iff in H. split; [intros ->|split; [auto|]].
    - destruct H as [H|H]; auto. apply Nat.eqb_eq in H. rewrite ES, EP, app_length in H. cbn [length] in H. lia.
    - destruct H as [H|H].
      + left. apply Nat.eqb_eq in H. rewrite ES, EP, app_length in H. lia.
      + right. destruct R as [_ R]. rewrite H in R. tauto. }
  destruct ((3 + p_sp p - length (p_stack p) =? 0)%nat || p_eof p) eqn:E; [apply (NR true); auto|].
  apply orb_false_iff in E. destruct E as [E1 E2]. apply Nat.eqb_neq in E1.
  set (n := (3 + p_sp p - length (p_stack p))%nat) in *.
  destruct (read_loop_spec n p pend extra R E2) as (k & p' & -> & P1 & P2 & P3 & P4 & P5 & P6).
  exists (firstn n pend), (skipn n pend). rewrite firstn_skipn, P1, ES, <- app_assoc, P2. do 6 (split; auto).
  assert (LN : n = (3 - length post)%nat) by (unfold n; rewrite ES, EP, app_length; lia).
  split; [|split].
  - intros X. destruct P6 as [P6|P6]; auto. apply app_eq_nil in X. destruct X as [_ X].
    apply (f_equal (@length _)) in X. rewrite firstn_length in X. cbn [length] in X. lia.
  - intros [X| ->]; [lia|]. apply firstn_nil.
  - destruct (Nat.le_gt_cases n (length pend)) as [X|X].
    + left. rewrite app_length, firstn_length. lia.
    + right. apply skipn_all2. lia.
Qed.

(* ---- pass 1 ---- *)
Definition weak (c : Z) : bool := (c =? cEN) || (c =? cET) || (c =? cES) || (c =? cCS).
Definition wt1 (s : scrap) : nat := if weak (clz s) then 2 else 1.
Definition weight (f : scrap -> nat) (l : list scrap) : nat := fold_right (fun s n => (f s + n)%nat) 0%nat l.

Lemma weight_app f a b : weight f (a ++ b) = (weight f a + weight f b)%nat.
Proof. induction a as [|x a IH]; [reflexivity|]. cbn. unfold weight in *. rewrite IH. lia. Qed.

Lemma wt1_clz s c : clz s = c -> wt1 s = if weak c then 2%nat else 1%nat.
Proof. intros <-. reflexivity. Qed.

Lemma weight_rule1 r m : In r stored -> pass r = 1 -> map clz m = lhs r ->
  (wt1 (merge (target1 r) m) < weight wt1 m)%nat /\ (1 <= length m)%nat /\ length m = lhsLen r.
Proof.
  intros I P M. assert (LM : length m = lhsLen r) by (unfold lhsLen; rewrite <- M, map_length; reflexivity).
  split; [|split; [|exact LM]].
  - destruct r; try discriminate P; cbn [lhs] in M; inv_map; unfold weight; cbn [fold_right];
      repeat match goal with H : clz ?s = _ |- context [wt1 ?s] => rewrite (wt1_clz s _ H) end; cbn; lia.
  - rewrite LM. destruct r; cbn; lia.
Qed.

(* The condition for a scrap to be passed over in pass 1. *)
Lemma not_weak s : is_class (clz s) ->
  (match rule_for stored [clz s] with Some r => if 1 <? pass r then None else Some r | None => None end) = None ->
  weak (clz s) = false.
Proof.
  intros C. rewrite short_spec by auto. unfold short_of, weak.
  destruct (clz s =? cET); [discriminate|]. destruct (clz s =? cES); [discriminate|]. destruct (clz s =? cCS); [discriminate|].
  destruct (clz s =? cEN); [discriminate|]. auto.
Qed.

Section Pass1.
(* The invariant, of the scraps before and after the stack pointer. *)
Context (G : list scrap -> list scrap -> Prop).
Definition plain_scrap (s : scrap) : Prop :=
  is_class (clz s) /\ isisolate s = false /\ (clz s = cEN -> dcContext (sctx s) = cL).
Context (G_rw : forall a m b r, G a (m ++ b) -> In r stored -> pass r = 1 -> map clz m = lhs r ->
  Forall (fun s => weak (clz s) = false) a -> (lhsLen r = 1%nat -> no_long (m ++ b)) ->
  G (firstn (length a - back r) a) (skipn (length a - back r) a ++ merge (target1 r) m :: b)).
Context (G_step : forall a s b, G a (s :: b) -> weak (clz s) = false -> Forall (fun s => weak (clz s) = false) a ->
  no_long (s :: b) -> G (a ++ [s]) b).
Context (G_plain : forall a b, G a b -> Forall plain_scrap (a ++ b)).

Definition done1 (hd_ : list scrap) (extra : list scrap) (p p' : pst) : Prop :=
  exists w, p_stack p' = hd_ ++ w /\ p_sp p' = length (p_stack p') /\ p_eof p' = true /\ p_pipe p' = extra /\
    p_depth p' = p_depth p /\ p_store p' = p_store p /\ G w [] /\ Forall (fun s => weak (clz s) = false) w.

Definition fuel1 (B : nat) (w rest : list scrap) (walk : bool) : nat :=
  (weight wt1 w * (2 * B + 2) + 2 * length rest + (if walk then 0 else 1))%nat.

Lemma plain_class w : Forall plain_scrap w -> Forall (fun s => is_class (clz s)) w.
Proof. apply Forall_impl. intros s (H & _). exact H. Qed.

Lemma pass1_flat : forall n B hd_ pre post pend extra walk short (p : pst),
  p_stack p = hd_ ++ pre ++ post -> p_sp p = length (hd_ ++ pre) -> reading p pend extra ->
  G pre (post ++ pend) -> Forall (fun s => weak (clz s) = false) pre ->
  (walk = true -> (exists s t, post = s :: t /\ short = rule_for stored [clz s]) /\ no_long (post ++ pend) /\
     ((3 <= length post)%nat \/ pend = [])) ->
  (length (pre ++ post ++ pend) <= B)%nat ->
  (fuel1 B (pre ++ post ++ pend) (post ++ pend) walk < n)%nat ->
  exists p', pass1_loop n (length hd_) walk short p = Ok (false, p') /\ done1 hd_ extra p p'.
Proof.
  induction n as [|n IH]; intros B hd_ pre post pend extra walk short p ES EP R GG CL WK LB FU; [lia|].
  cbn [Resolver.pass1_loop]. rewrite app_assoc in ES.
  destruct (fill_spec p (hd_ ++ pre) post pend extra ES EP R) as (ex & pend' & -> & ES' & EP' & R' & D' & S' & EO & EX & LA).
  set (q := fill p) in *. clearbody q.
  rewrite (app_assoc post ex pend') in GG, FU, LB, WK. set (po := post ++ ex) in *.
  rewrite EP', ES'. destruct po as [|s t] eqn:EPO.
  - (* at the end *)
    rewrite app_nil_r, Nat.eqb_refl. rewrite (EO eq_refl). exists q. split; [reflexivity|]. destruct R' as [_ R'].
    rewrite (EO eq_refl) in R'. destruct R' as [-> R']. cbn [app] in GG. rewrite app_nil_r in ES'.
    exists pre. rewrite ES', EP'. rewrite (EO eq_refl). do 6 (split; auto).
  - assert (NL : (length ((hd_ ++ pre) ++ s :: t) =? length (hd_ ++ pre))%nat = false).
    { apply Nat.eqb_neq. rewrite (app_length (hd_ ++ pre)). cbn [length]. lia. }
    rewrite NL. pose proof (G_plain _ _ GG) as PL.
    assert (PLP : Forall plain_scrap (s :: t)).
    { apply Forall_app in PL. destruct PL as [_ PL]. apply Forall_app in PL. tauto. }
    inversion PLP as [|? ? (PC & PI & PE) _]; subst.
    (* applying a rule of this pass *)
    assert (RULE : forall r, In r stored -> (if 1 <? pass r then None else Some r) = Some r ->
      (exists m v, s :: t = m ++ v /\ map clz m = lhs r) -> (lhsLen r = 1%nat -> no_long (s :: t ++ pend')) ->
      exists p', (let* p0 := Resolver.apply_rule q r (length hd_) (length hd_) in pass1_loop n (length hd_) false None p0) = Ok (false, p') /\
    done1 hd_ extra p p').
    { intros r I PR (m & v & EM & ML) NLG. assert (P1 : pass r = 1) by (destruct r; cbn in PR |- *; try discriminate PR; reflexivity).
      destruct (weight_rule1 r m I P1 ML) as (WL & L1 & LR).
      assert (NM : m <> []) by (destruct m; [cbn in L1; lia|discriminate]).
      destruct (action1 r m v I P1 ML) as (nl & AC).
      { intros ->. cbn [lhs] in ML. inv_map. injection EM as <- _. cbn [hd]. auto. }
      assert (ESm : p_stack q = (hd_ ++ pre) ++ m ++ v) by (rewrite ES', EM; reflexivity).
      rewrite (apply_meld q r (hd_ ++ pre) m v _ _ nl (length hd_) (length hd_) ESm EP' NM LR) by (try exact AC; rewrite app_length; lia).
      cbn [rbind]. set (x := merge (target1 r) m) in *. set (jmp := - Z.of_nat (back r)) in *.
      set (k := (jump (length hd_) (length (hd_ ++ pre)) jmp - length hd_)%nat).
      assert (KL : (jump (length hd_) (length (hd_ ++ pre)) jmp = length hd_ + k)%nat /\ (k = length pre - back r)%nat).
      { unfold k, jump, jmp. rewrite app_length. lia. }
      destruct KL as [KJ KB]. rewrite KJ. assert (KL : (k <= length pre)%nat) by lia.
      assert (EPRE : pre = firstn k pre ++ skipn k pre) by (symmetry; apply firstn_skipn).
      assert (EMP : s :: t ++ pend' = m ++ v ++ pend') by (rewrite app_assoc, <- EM; reflexivity).
      assert (GW : G (firstn k pre) (skipn k pre ++ x :: v ++ pend')).
      { change ((s :: t) ++ pend') with (s :: t ++ pend') in GG. rewrite EMP in GG. rewrite KB.
        apply G_rw; auto. intros X. rewrite <- EMP. auto. }
      assert (WT : (weight wt1 (pre ++ x :: v ++ pend') < weight wt1 (pre ++ (s :: t) ++ pend'))%nat).
      { rewrite EM, !weight_app. change (weight wt1 (x :: v ++ pend')) with (wt1 x + weight wt1 (v ++ pend'))%nat.
        rewrite weight_app. lia. }
      assert (LT : (length (pre ++ x :: v ++ pend') <= length (pre ++ (s :: t) ++ pend'))%nat).
      { rewrite EM, !app_length. cbn [length]. rewrite !app_length. lia. }
      destruct (IH B hd_ (firstn k pre) (skipn k pre ++ x :: v) pend' extra false None
        (with_sp (with_stack q ((hd_ ++ pre) ++ x :: v)) (length hd_ + k))) as (p' & PE' & DN).
      - cbn. rewrite (app_assoc (firstn k pre)), firstn_skipn, app_assoc. reflexivity.
      - cbn. rewrite app_length, firstn_length. lia.
      - exact R'.
      - rewrite <- app_assoc. exact GW.
      - rewrite EPRE in CL. apply Forall_app in CL. tauto.
      - discriminate.
      - rewrite <- !app_assoc, (app_assoc (firstn k pre)), firstn_skipn. cbn [app]. lia.
      - unfold fuel1 in *. rewrite <- !app_assoc, (app_assoc (firstn k pre)), firstn_skipn. cbn [app].
        assert (LQ : (length (skipn k pre ++ x :: v ++ pend') <= B)%nat).
        { rewrite app_length, skipn_length. rewrite app_length in LT. lia. }
        revert WT FU LQ. generalize (weight wt1 (pre ++ x :: v ++ pend')) (weight wt1 (pre ++ (s :: t) ++ pend')) (length (skipn k pre ++ x :: v ++ pend')).
        intros a b l WT FU LQ. assert (a * (2 * B + 2) + (2 * B + 2) <= b * (2 * B + 2))%nat by nia. lia.
      - exists p'. split; [exact PE'|]. destruct DN as (w & A1 & A2 & A3 & A4 & A5 & A6 & A7). exists w.
        cbn in A5, A6. rewrite <- D', <- S'. repeat (split; auto). }
    destruct walk.
    + destruct (WK eq_refl) as ((s' & t' & EPO' & ESH) & NLG & LB3). assert (EX0 : ex = []).
      { apply EX. destruct LB3 as [X|X]; auto. }
      subst post ex. unfold po in EPO. rewrite app_nil_r in EPO. injection EPO as <- EPO.
      change ((s' :: t) ++ pend') with (s' :: t ++ pend') in NLG.
      destruct (match short with Some r => if 1 <? pass r then None else Some r | None => None end) as [r|] eqn:SH.
      * assert (SR : short = Some r /\ (if 1 <? pass r then None else Some r) = Some r).
        { destruct short as [r'|]; [|discriminate]. destruct (1 <? pass r') eqn:PP; [discriminate|]. injection SH as ->. rewrite PP. auto. }
        destruct SR as [SR1 SR2]. rewrite SR1 in ESH.
        destruct (short_found (s' :: t) r) as [I SP]; [cbn; auto|].
        apply RULE; auto.
      * (* walk *)
        assert (NWk : weak (clz s') = false) by (apply not_weak; [exact PC|rewrite <- ESH; exact SH]).
        assert (NT : nth_error ((hd_ ++ pre) ++ s' :: t) (length (hd_ ++ pre)) = Some s').
        { rewrite nth_error_app2, Nat.sub_diag by lia. reflexivity. }
        rewrite NT. cbn [lift rbind].
        assert (NP : (clz s' =? cPDI) = false).
        { unfold isisolate in PI. repeat rewrite orb_false_iff in PI. tauto. }
        rewrite NP, PI.
        destruct (IH B hd_ (pre ++ [s']) t pend' extra false None (with_sp q (S (length (hd_ ++ pre))))) as (p' & PE' & DN).
        -- cbn. rewrite ES', <- !app_assoc. reflexivity.
        -- cbn. rewrite !app_length. cbn. lia.
        -- exact R'.
        -- apply G_step; auto.
        -- apply Forall_app. split; auto.
        -- discriminate.
        -- rewrite <- app_assoc. exact LB.
        -- unfold fuel1 in *. rewrite <- app_assoc. cbn [app length] in *. rewrite app_length in *. lia.
        -- exists p'. split; [exact PE'|]. destruct DN as (w & A1 & A2 & A3 & A4 & A5 & A6 & A7). exists w.
           cbn in A5, A6. rewrite <- D', <- S'. repeat (split; auto).
    + rewrite (match_spec_at q (hd_ ++ pre) (s :: t)) by (auto using plain_class; lia). cbn [rbind].
      destruct (match long_rule stored (map clz (s :: t)) with Some r => if 1 <? pass r then None else Some r | None => None end) as [r|] eqn:LO.
      * assert (SR : long_rule stored (map clz (s :: t)) = Some r /\ (if 1 <? pass r then None else Some r) = Some r).
        { destruct (long_rule stored (map clz (s :: t))) as [r'|]; [|discriminate].
          destruct (1 <? pass r') eqn:PP; [discriminate|]. injection LO as ->. rewrite PP. auto. }
        destruct SR as [SR1 SR2]. destruct (long_found _ _ SR1) as [I SP]. apply RULE; auto.
        intros X. exfalso. apply find_some in SR1. destruct SR1 as [_ SR1]. apply andb_true_iff in SR1. destruct SR1 as [SR1 _]. apply Nat.leb_le in SR1. lia.
      * destruct (IH B hd_ pre (s :: t) pend' extra true (rule_for stored (firstn 1 (map clz (s :: t)))) q) as (p' & PE' & DN); auto.
        -- rewrite ES', <- app_assoc. reflexivity.
        -- intros _. split; [exists s, t; auto|]. split; [|exact LA]. apply no_long_found; auto.
        -- unfold fuel1 in *. lia.
        -- exists p'. split; [exact PE'|]. destruct DN as (w & A1 & A2 & A3 & A4 & A5 & A6 & A7). exists w.
           rewrite <- D', <- S'. repeat (split; auto).
Qed.
End Pass1.
(* ---- pass 2 ---- *)
Definition wt2 (s : scrap) : nat :=
  if clz s =? cBRACKC then 4 else if clz s =? cBRACKO then 3 else if clz s =? cNI then 2 else 1.

Lemma wt2_clz s c : clz s = c -> wt2 s = (if (c =? cBRACKC)%Z then 4 else if (c =? cBRACKO)%Z then 3 else if (c =? cNI)%Z then 2 else 1)%nat.
Proof. intros <-. reflexivity. Qed.

Lemma weight_rule2 r m : melds r -> map clz m = lhs r ->
  (wt2 (merge (target2 r) m) < weight wt2 m)%nat /\ (1 <= length m)%nat /\ length m = lhsLen r.
Proof.
  intros R M. assert (LM : length m = lhsLen r) by (unfold lhsLen; rewrite <- M, map_length; reflexivity).
  split; [|split; [|exact LM]].
  - destruct R as [-> | [-> | [-> | ->]]]; cbn [lhs] in M; inv_map; unfold weight; cbn [fold_right];
      repeat match goal with H : clz ?s = _ |- context [wt2 ?s] => rewrite (wt2_clz s _ H) end; cbn; lia.
  - rewrite LM. destruct R as [-> | [-> | [-> | ->]]]; cbn; lia.
Qed.

(* Rule N0 at the scrap [s]: its class, the jump, and the store. *)
Definition n0_at (b : store) (s : scrap) : Z * Z * store :=
  let (answer, b) := findBr b s in
  if clz s =? cBRACKO then
    match answer with
    | None => (clz s, 1, b)
    | Some closeBr =>
        let '(c, jmp) :=
          if has_match_after closeBr s then (se s, -2)
          else if has_opposite_after closeBr s then (if dcStrong (sctx s) =? so s then so s else se s, -2)
          else (cNI, -1) in
        (c, jmp, changeBr b (with_clz s c))
    end
  else
    let c := match answer with Some openBr => clz openBr | None => cNI end in
    (c, if c =? cNI then 1 else -2, b).

Lemma nset_mid {A} (u : list A) s t x : nset (u ++ s :: t) (length u) x = u ++ x :: t.
Proof. induction u as [|a u IH]; [reflexivity|]. cbn. rewrite IH. reflexivity. Qed.

Lemma performRuleN0_at (p : pst) pre s t c jmp b : p_stack p = pre ++ s :: t -> p_sp p = length pre -> n0_at (p_store p) s = (c, jmp, b) ->
  performRuleN0 findBr changeBr p = Some (mkp (pre ++ with_clz s c :: t) (p_sp p) (p_eof p) (p_pipe p) (p_depth p) b, jmp).
Proof.
  intros ES EP. unfold n0_at, performRuleN0. rewrite ES, EP.
  assert (NT : nth_error (pre ++ s :: t) (length pre) = Some s) by (rewrite nth_error_app2, Nat.sub_diag by lia; reflexivity).
  rewrite NT. cbn [obind]. destruct (findBr (p_store p) s) as [ans b0]. destruct (clz s =? cBRACKO).
  - destruct ans as [cl|].
    + destruct (if has_match_after cl s then _ else _) as [c0 j0]. intros X. injection X as <- <- <-.
      unfold with_store, with_stack. cbn. rewrite ES, EP, nset_mid. reflexivity.
    + intros X. injection X as <- <- <-. unfold with_store. rewrite ES, EP.
      replace (with_clz s (clz s)) with s by (destruct s; reflexivity). reflexivity.
  - intros X. injection X as <- <- <-. unfold with_store, with_stack. cbn. rewrite ES, EP, nset_mid. reflexivity.
Qed.

Definition is_neutral (s : scrap) : Prop := clz s = cNI \/ clz s = cBRACKO \/ clz s = cBRACKC.
Definition harmful (r : rule) : Prop := r = N1_3 \/ r = N1_4 \/ r = N1_7 \/ r = N1_10.
(* No rule of the second pass with two or more symbols applies. *)
Definition no_meld (w : list scrap) : Prop := forall r m v, melds r -> w = m ++ v -> map clz m <> lhs r.

Section Pass2.
(* [G]: the invariant, of the store and the scraps before and after the stack pointer. *)
Context (K : Z -> Prop) (G : store -> list scrap -> list scrap -> Prop).
Definition fine_scrap (s : scrap) : Prop :=
  is_class (clz s) /\ clz s <> cPDI /\
  (is_neutral s -> K (se s) /\ (dcStrong (sctx s) = so s -> K (so s))).
Context (K_strong : forall c, K c -> c = cL \/ c = cR).
Context (G_meld : forall st a m b r, G st a (m ++ b) -> melds r -> map clz m = lhs r -> G st a (merge (target2 r) m :: b)).
Context (G_N2 : forall st a s b, G st a (s :: b) -> clz s = cNI -> K (se s) ->
  G st (firstn (length a - 1) a) (skipn (length a - 1) a ++ with_clz s (se s) :: b)).
Context (G_step : forall st a s b, G st a (s :: b) -> clz s <> cNI -> isbracket s = false -> no_meld (s :: b) -> G st (a ++ [s]) b).
(* Brackets: nothing is done, or the class is changed to one that is closer to the end. *)
Context (G_bracket : forall st a s b c jmp st', G st a (s :: b) -> isbracket s = true -> n0_at st s = (c, jmp, st') ->
  (c = clz s /\ jmp = 1 /\ G st' (a ++ [s]) b) \/
  ((wt2 (with_clz s c) < wt2 s)%nat /\ jmp <= 1 /\
     forall u v, u ++ v = a ++ with_clz s c :: b -> length u = jump 0 (length a) jmp -> G st' u v)).
Context (G_fine : forall st a b, G st a b -> Forall fine_scrap (a ++ b)).
Context (G_harm : forall st a m b r, G st a (m ++ b) -> harmful r -> map clz m <> lhs r).

Definition done2 (p p' : pst) : Prop :=
  p_sp p' = length (p_stack p') /\ p_eof p' = p_eof p /\ p_pipe p' = p_pipe p /\ p_depth p' = p_depth p /\ G (p_store p') (p_stack p') [].

Definition fuel2 (B : nat) (w rest : list scrap) : nat := (weight wt2 w * (B + 1) + length rest)%nat.

Lemma K_class c : K c -> (c =? cBRACKC) = false /\ (c =? cBRACKO) = false /\ (c =? cNI) = false.
Proof. intros H. destruct (K_strong c H) as [-> | ->]; auto. Qed.

Lemma stored_pass2 r : In r stored -> pass r <> 1 -> melds r \/ harmful r \/ r = N2.
Proof. unfold melds, harmful. intros I P. destruct r; try (exfalso; apply P; reflexivity); auto 8; cbn in I; decompose [or] I; try discriminate; contradiction. Qed.

Lemma long_meld r v : melds r -> long_rule stored (lhs r ++ v) = Some r /\ (pass r <? 2) = false.
Proof. intros [->|[->|[->| ->]]]; destruct v; auto. Qed.

Lemma pass2_gen : forall n B pre post (p : pst),
  p_stack p = pre ++ post -> p_sp p = length pre -> G (p_store p) pre post ->
  (length (pre ++ post) <= B)%nat -> (fuel2 B (pre ++ post) post < n)%nat ->
  exists p', pass2 n 0 p = Ok p' /\ done2 p p'.
Proof.
  induction n as [|n IH]; intros B pre post p ES EP GG LB FU; [lia|]. cbn [Resolver.pass2].
  pose proof (G_fine _ _ _ GG) as FN.
  assert (PD : (match p_sp p with
                | O => Some false
                | S k => do s <- nth_error (p_stack p) k; Some (clz s =? cPDI)
                end) = Some false).
  { rewrite ES, EP. destruct (length pre) as [|k] eqn:EK; [reflexivity|].
    destruct (nth_error (pre ++ post) k) as [s|] eqn:EN.
    - cbn [obind]. rewrite Forall_forall in FN. destruct (FN s (nth_error_In _ _ EN)) as (_ & X & _).
      apply Z.eqb_neq in X. rewrite X. reflexivity.
    - apply nth_error_None in EN. rewrite app_length in EN. lia. }
  rewrite PD. cbn [lift rbind orb]. rewrite ES, EP.
  destruct post as [|s t].
  { rewrite app_nil_r in *. rewrite Nat.leb_refl. exists p. split; [reflexivity|].
    unfold done2. rewrite ES, EP. repeat (split; auto). }
  destruct (Nat.leb_spec (length (pre ++ s :: t)) (length pre)) as [X|_]; [rewrite app_length in X; cbn [length] in X; lia|].
  assert (NT : nth_error (pre ++ s :: t) (length pre) = Some s).
  { rewrite nth_error_app2, Nat.sub_diag by lia. reflexivity. }
  rewrite NT. cbn [lift rbind].
  assert (FS : fine_scrap s) by (rewrite Forall_forall in FN; apply FN; apply in_or_app; right; left; auto).
  destruct FS as (FC & FP & FK).
  (* continuing after a change that lowers the weight *)
  assert (CONT : forall v x q sp', p_stack q = pre ++ x :: v -> p_sp q = sp' -> (sp' <= S (length pre))%nat ->
    G (p_store q) (firstn sp' (pre ++ x :: v)) (skipn sp' (pre ++ x :: v)) ->
    p_eof q = p_eof p -> p_pipe q = p_pipe p -> p_depth q = p_depth p ->
    (exists m, m ++ v = s :: t /\ (wt2 x < weight wt2 m)%nat /\ (1 <= length m)%nat) ->
    exists p', pass2 n 0 q = Ok p' /\ done2 p p').
  { intros v x q sp' Q1 Q2 Q3 Q4 Q6 Q7 Q8 (m & EM & WX & LM).
    set (w := pre ++ x :: v) in *.
    assert (LW : (length w <= B)%nat).
    { unfold w. rewrite <- EM in LB. rewrite !app_length in *. cbn [length]. lia. }
    assert (SL : (sp' <= length w)%nat) by (unfold w; rewrite app_length; cbn [length]; lia).
    destruct (IH B (firstn sp' w) (skipn sp' w) q) as (p' & E & D); rewrite ?firstn_skipn; auto.
    - rewrite Q2, firstn_length. lia.
    - assert (WT : (weight wt2 w < weight wt2 (pre ++ s :: t))%nat).
      { unfold w. rewrite <- EM, !weight_app. change (weight wt2 (x :: v)) with (wt2 x + weight wt2 v)%nat. lia. }
      assert (LQ : (length (skipn sp' w) <= B)%nat) by (rewrite skipn_length; lia).
      unfold fuel2 in *. revert WT FU LQ. generalize (weight wt2 w) (weight wt2 (pre ++ s :: t)) (length (skipn sp' w)).
      intros a b l WT FU LQ. assert (a * (B + 1) + (B + 1) <= b * (B + 1))%nat by nia. lia.
    - exists p'. split; auto. destruct D as (D1 & D2 & D3 & D4 & D5). unfold done2. rewrite <- Q6, <- Q7, <- Q8. auto. }
  (* walking on *)
  assert (STEP : forall q, G (p_store q) (pre ++ [s]) t -> p_stack q = pre ++ s :: t -> p_sp q = S (length pre) -> p_eof q = p_eof p ->
    p_pipe q = p_pipe p -> p_depth q = p_depth p -> exists p', pass2 n 0 q = Ok p' /\ done2 p p').
  { intros q QN Q1 Q2 Q6 Q7 Q8. destruct (IH B (pre ++ [s]) t q) as (p' & E & D); rewrite <- ?app_assoc; auto.
    - rewrite Q2, app_length. cbn. lia.
    - unfold fuel2 in *. cbn [app length] in *. lia.
    - exists p'. split; auto. destruct D as (D1 & D2 & D3 & D4 & D5). unfold done2. rewrite <- Q6, <- Q7, <- Q8. auto. }
  destruct (isbracket s) eqn:BR.
  - destruct (n0_at (p_store p) s) as [[c jmp] b] eqn:EN. rewrite (performRuleN0_at p pre s t c jmp b ES EP EN). cbn [lift rbind].
    destruct (G_bracket _ _ _ _ _ _ _ GG BR EN) as [(-> & -> & GB)|(WB & JJ & GB)].
    + replace (with_clz s (clz s)) with s by (destruct s; reflexivity). apply STEP; auto. cbn. rewrite EP. unfold jump. lia.
    + assert (JL : (jump 0 (length pre) jmp <= S (length pre))%nat) by (unfold jump; lia).
      apply (CONT t (with_clz s c) _ (jump 0 (length pre) jmp)); auto.
      * cbn. rewrite EP. reflexivity.
      * apply GB; [apply firstn_skipn|]. rewrite firstn_length, app_length. cbn [length]. lia.
      * exists [s]. split; auto. split; [|cbn; lia]. unfold weight. cbn [fold_right]. lia.
  - assert (CF : Forall (fun s => is_class (clz s)) (s :: t)).
    { apply Forall_app in FN. destruct FN as [_ FN]. eapply Forall_impl; [|exact FN]. intros y (Y & _). exact Y. }
    rewrite (match_spec_at p pre (s :: t)) by (auto; lia). cbn [rbind].
    (* applying a rule of pass 2 *)
    assert (RULE : forall r, In r stored -> (pass r <? 2) = false -> (exists m v, s :: t = m ++ v /\ map clz m = lhs r) ->
      exists p', (let* p0 := Resolver.apply_rule p r 0 0 in pass2 n 0 p0) = Ok p' /\ done2 p p').
    { intros r I PR (m & v & EM & ML).
      destruct (stored_pass2 r I) as [R|[R|R]]; [intros X; rewrite X in PR; discriminate| | |].
      - destruct (weight_rule2 r m R ML) as (WL & L1 & LR).
        assert (NM : m <> []) by (destruct m; [cbn in L1; lia|discriminate]).
        destruct (action2 r m v R ML) as (nl & AC).
        rewrite EM in ES. rewrite (apply_meld p r pre m v _ 0 nl 0 0 ES EP NM LR) by (try exact AC; lia). cbn [rbind].
        apply (CONT v (merge (target2 r) m) _ (jump 0 (length pre) 0)); auto.
        + unfold jump. lia.
        + unfold jump. replace (Z.to_nat _) with (length pre) by lia.
          rewrite firstn_app, skipn_app, firstn_all, skipn_all, Nat.sub_diag. cbn [firstn skipn app]. rewrite app_nil_r.
          rewrite EM in GG. apply G_meld; auto.
        + exists m. auto.
      - exfalso. rewrite EM in GG. exact (G_harm _ _ _ _ _ GG R ML).
      - subst r. destruct (action_N2 m v ML) as (nl & AC).
        assert (E1 : m = [s] /\ clz s = cNI /\ v = t).
        { pose proof ML as ML'. cbn [lhs] in ML'. inv_map. injection EM as <- <-. auto. }
        destruct E1 as (-> & SN & ->). cbn [hd] in AC.
        rewrite (apply_meld p N2 pre [s] t _ (-1) nl 0 0 ES EP ltac:(discriminate) eq_refl) by (try exact AC; lia). cbn [rbind].
        assert (NE : is_neutral s) by (left; auto). destruct (FK NE) as [K1 K2]. rewrite merge_one.
        apply (CONT t (with_clz s (se s)) _ (jump 0 (length pre) (-1))); auto.
        + unfold jump. lia.
        + unfold jump. replace (Z.to_nat _) with (length pre - 1)%nat by lia.
          rewrite firstn_app, skipn_app. replace (length pre - 1 - length pre)%nat with 0%nat by lia.
          cbn [firstn skipn]. rewrite app_nil_r. apply G_N2; auto.
        + exists [s]. split; auto. split; [|cbn; lia]. unfold weight. cbn [fold_right].
          rewrite (wt2_clz s _ SN). cbn. unfold wt2. cbn [clz with_clz]. destruct (K_class _ K1) as (-> & -> & ->). lia. }
    set (chosen := match long_rule stored (map clz (s :: t)) with Some r => if pass r <? 2 then _ else _ | None => _ end).
    assert (CH : forall r, chosen = Some r -> In r stored /\ exists m v, s :: t = m ++ v /\ map clz m = lhs r).
    { unfold chosen. intros r. destruct (long_rule stored (map clz (s :: t))) as [r'|] eqn:LO.
      - destruct (pass r' <? 2); intros X; [apply short_found; exact X|]. injection X as <-. apply long_found. exact LO.
      - intros X. apply short_found. exact X. }
    assert (CS : (match chosen with Some r => pass r <? 2 | None => true end) = true -> clz s <> cNI /\ no_meld (s :: t)).
    { intros X. split.
      - intros SN. revert X. unfold chosen. destruct (long_rule stored (map clz (s :: t))) as [r'|] eqn:LO.
        + destruct (pass r' <? 2) eqn:PR; [cbn [map firstn]; rewrite SN; discriminate|congruence].
        + cbn [map firstn]. rewrite SN. discriminate.
      - intros r m v R EM ML. revert X. unfold chosen. rewrite EM, map_app, ML.
        destruct (long_meld r (map clz v) R) as [-> PR]. rewrite PR. congruence. }
    destruct chosen as [r|].
    + destruct (CH r eq_refl) as [I SP]. destruct (pass r <? 2) eqn:PR; [|apply RULE; auto].
      destruct (CS eq_refl). apply STEP; auto.
    + destruct (CS eq_refl). apply STEP; auto.
Qed.
End Pass2.

(* Brackets with any outcome. *)
Section Flat2.
Context (K : Z -> Prop) (SI : store -> Prop) (G : list scrap -> list scrap -> Prop).
Context (K_strong : forall c, K c -> c = cL \/ c = cR).
Context (find_ok : forall b s a b', SI b -> findBr b s = (a, b') -> SI b' /\
  (clz s = cBRACKC -> forall o, a = Some o -> K (clz o) \/ clz o = cNI \/ clz o = cBRACKO)).
Context (change_ok : forall b s, SI b -> K (clz s) \/ clz s = cNI -> SI (changeBr b s)).
Context (G_step : forall a s b, G a (s :: b) -> clz s <> cNI -> no_meld (s :: b) -> G (a ++ [s]) b).
(* The stack pointer may be anywhere after a change. *)
Context (G_set : forall a s b c, G a (s :: b) -> isbracket s = true ->
  (K c \/ c = cNI \/ clz s = cBRACKC /\ c = cBRACKO) ->
  forall u v, u ++ v = a ++ with_clz s c :: b -> G u v).
Context (G_fine : forall a b, G a b -> Forall (fine_scrap K) (a ++ b)).

Lemma wt2_set s c : isbracket s = true -> (K c \/ c = cNI \/ clz s = cBRACKC /\ c = cBRACKO) -> (wt2 (with_clz s c) < wt2 s)%nat.
Proof.
  intros BR KC. unfold isbracket in BR. apply orb_true_iff in BR. unfold wt2 at 1. cbn [clz with_clz].
  destruct BR as [X|X]; apply Z.eqb_eq in X; rewrite (wt2_clz s _ X);
    (destruct KC as [KC|[KC|[KC1 KC]]]; [destruct (K_class K K_strong _ KC) as (-> & -> & ->); cbn; lia|rewrite KC; cbn; lia|]); rewrite KC; cbn; try lia.
  rewrite X in KC1. discriminate KC1.
Qed.

Lemma bracket_any st a s b c jmp st' : G a (s :: b) -> SI st -> isbracket s = true -> n0_at st s = (c, jmp, st') ->
  (c = clz s /\ jmp = 1 /\ G (a ++ [s]) b /\ SI st') \/
  ((K c \/ c = cNI \/ clz s = cBRACKC /\ c = cBRACKO) /\ jmp <= 1 /\ forall u v, u ++ v = a ++ with_clz s c :: b -> length u = jump 0 (length a) jmp -> G u v /\ SI st').
Proof.
  intros GG SS BR. unfold n0_at. destruct (findBr st s) as [ans b0] eqn:FB.
  destruct (find_ok _ _ _ _ SS FB) as [SB FO].
  assert (FS : fine_scrap K s) by (pose proof (G_fine _ _ GG) as FN; rewrite Forall_forall in FN; apply FN; apply in_or_app; right; left; auto).
  destruct FS as (FC & FP & FK).
  destruct (Z.eqb_spec (clz s) cBRACKO) as [BO|BO].
  - assert (NE : is_neutral s) by (right; left; auto). destruct (FK NE) as [K1 K2].
    destruct ans as [cl|].
    + set (cj := if has_match_after cl s then _ else _).
      assert (CJ : exists c jmp, cj = (c, jmp) /\ -2 <= jmp <= 0 /\ (K c \/ c = cNI)).
      { unfold cj. destruct (has_match_after cl s); [exists (se s), (-2); split; auto; split; auto; lia|].
        destruct (has_opposite_after cl s).
        - destruct (Z.eqb_spec (dcStrong (sctx s)) (so s)); eexists _, (-2); split; auto; split; auto; lia.
        - exists cNI, (-1). split; auto. split; auto. lia. }
      destruct CJ as (c' & jmp' & -> & JJ & KC). intros X. injection X as <- <- <-. right. split; [|split; [lia|]].
      * tauto.
      * intros u v E _. split; [|apply change_ok; auto]. apply (G_set a s b c'); auto. destruct KC as [KC|KC]; auto.
    + intros X. injection X as <- <- <-. left. split; auto. split; auto. split; auto. apply G_step; auto.
      * rewrite BO. discriminate.
      * intros r m v R EM ML. destruct R as [->|[->|[->| ->]]]; cbn [lhs] in ML; inv_map; injection EM as <- _;
          match goal with H : clz s = cL |- _ => rewrite BO in H; discriminate H | H : clz s = cR |- _ => rewrite BO in H; discriminate H end.
  - assert (BC : clz s = cBRACKC).
    { unfold isbracket in BR. apply orb_true_iff in BR. destruct BR as [X|X]; apply Z.eqb_eq in X; congruence. }
    set (c' := match ans with Some o => clz o | None => cNI end).
    assert (KC : K c' \/ c' = cNI \/ c' = cBRACKO) by (unfold c'; destruct ans as [o|]; [apply (FO BC o eq_refl)|auto]).
    intros X. injection X as <- <- <-. right. split; [|split; [destruct (_ =? _); lia|]].
    + tauto.
    + intros u v E _. split; auto. apply (G_set a s b c'); auto. destruct KC as [KC|[KC|KC]]; auto.
Qed.
End Flat2.
End Parser.
