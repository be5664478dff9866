(* BracketText.v -- the bracket pairs of a text without isolates. *)
From Coq Require Import List ZArith Lia Bool Permutation.
From Verif Require Import SplitProofs Base Scrap Brackets Bd16Spec BracketProofs Scanner ScannerProofs ResolverText Resolver ResolverFlat ReorderSpec NestedText ScanContext.
Import ListNotations.
Open Scope Z_scope.

(* ---- the pairs of a handler consist of what it was given ---- *)
Definition before (es : list (Z * scrap)) (a b : scrap) : Prop :=
  exists x r1 y r2 z, es = x ++ (r1, a) :: y ++ (r2, b) :: z.
Definition given (es : list (Z * scrap)) (h : handler) : Prop :=
  Forall (fun b => In (bp_open b) (map snd es)) (bstack h) /\ Forall (fun p => before es (pg_open p) (pg_close p)) (pairs h).

Lemma before_app es fs a b : before es a b -> before (es ++ fs) a b.
Proof. intros (x & r1 & y & r2 & z & ->). exists x, r1, y, r2, (z ++ fs). rewrite <- !app_assoc. cbn [app]. rewrite <- app_assoc. reflexivity. Qed.

Lemma given_step es h e : given es h -> given (es ++ [e]) (bd16_step h e).
Proof.
  intros [G1 G2]. assert (W : given (es ++ [e]) h).
  { split; [eapply Forall_impl; [|exact G1]; intros b X; rewrite map_app; apply in_or_app; auto|].
    eapply Forall_impl; [|exact G2]. intros p X. apply before_app. exact X. }
  destruct e as [r s]. unfold bd16_step. destruct (negb _); [exact W|]. destruct W as [W1 W2]. destruct (clz s =? cBRACKO).
  - unfold push_opening, bs_push. destruct (_ <=? _); [split; auto|]. destruct (negb _); [split; auto|].
    destruct (find_opening _ _); [|split; auto]. split; cbn; auto. apply Forall_app. split; auto.
    constructor; auto. cbn. rewrite map_app. apply in_or_app. right. left. reflexivity.
  - unfold find_pair, pop_with.
    assert (P : forall n b bs, pop_loop (bstack h) r n = Some (b, bs) -> In b (bstack h) /\ exists i, bs = firstn i (bstack h)).
    { induction n as [|n IH]; [discriminate|]. cbn [pop_loop]. intros b bs. destruct (nth_error (bstack h) n) as [x|] eqn:X; [|discriminate].
      destruct (_ =? r); [|auto]. intros Y. injection Y as <- <-. split; [apply (nth_error_In _ _ X)|eauto]. }
    destruct (pop_loop _ _ _) as [[b bs]|] eqn:EP; [|split; auto]. destruct (P _ _ _ EP) as [I (i & ->)].
    cbn [snd]. split; cbn [bstack pairs].
    + rewrite Forall_forall in W1. apply Forall_forall. intros x X. apply W1. rewrite <- (firstn_skipn i). apply in_or_app. auto.
    + set (k := find_inx _ _ _ _). rewrite <- (firstn_skipn k (pairs h)) in W2. apply Forall_app in W2. destruct W2 as [A B].
      apply Forall_app. split; auto. constructor; auto. cbn. rewrite Forall_forall in G1. specialize (G1 b I).
      apply in_map_iff in G1. destruct G1 as ([r1 o] & EO & IO). cbn in EO. subst o. apply in_split in IO. destruct IO as (x & y & ->).
      exists x, r1, y, r, []. rewrite <- app_assoc. reflexivity.
Qed.

Lemma given_run : forall es pre h, given pre h -> given (pre ++ es) (bd16_run h es).
Proof.
  induction es as [|e es IH]; intros pre h G; [rewrite app_nil_r; exact G|]. cbn [bd16_run fold_left].
  replace (pre ++ e :: es) with ((pre ++ [e]) ++ es) by (rewrite <- app_assoc; reflexivity). apply IH. apply given_step. exact G.
Qed.
Lemma given_new es : given es (bd16_run new_handler es).
Proof. apply (given_run es [] new_handler). split; constructor. Qed.

Lemma filter_split {A} (f : A -> bool) a : forall l x y, filter f l = x ++ a :: y -> exists u v, l = u ++ a :: v /\ filter f u = x /\ filter f v = y.
Proof.
  induction l as [|b l IH]; intros x y H; [destruct x; discriminate|]. cbn [filter] in H. destruct (f b) eqn:E.
  - destruct x as [|c x]; cbn in H.
    + injection H as -> <-. exists [], l. auto.
    + injection H as -> H. destruct (IH _ _ H) as (u & v & -> & <- & <-). exists (c :: u), v. cbn. rewrite E. auto.
  - destruct (IH _ _ H) as (u & v & -> & <- & <-). exists (b :: u), v. cbn. rewrite E. auto.
Qed.
Lemma before_filter f es ss a b : map snd es = filter f ss -> before es a b -> exists u w v, ss = u ++ a :: w ++ b :: v.
Proof.
  intros M (x & r1 & y & r2 & z & ->). rewrite map_app in M. cbn [map snd] in M. rewrite map_app in M. cbn [map snd] in M.
  symmetry in M. apply filter_split in M. destruct M as (u & t & -> & _ & M). apply filter_split in M. destruct M as (w & v & -> & _). eauto.
Qed.

(* ---- the scanner ---- *)
Section Scan.
Context (md : mode) (props : Z -> Z * Z) (upper : Z -> bool).
Notation eff := (eff md props upper).
Notation para := (para md props).
Notation classes := (classes_of md props upper).

(* The brackets of the text, with their positions; a mark counts as the character it belongs to (W1). *)
Fixpoint brackets_of (prev pos : Z) (l : list (Z * Z)) : list (Z * Z) :=
  match l with
  | [] => []
  | (r, len) :: t =>
      let k := if eff r =? cNSM then prev else eff r in
      (if (k =? cBRACKO) || (k =? cBRACKC) then [(r, pos)] else []) ++ brackets_of k (pos + len) t
  end.

Definition one (h : handler) (st : scst) : Prop :=
  s_hs st = [mkhr h 0 0 None] /\ s_irs st = [(0, 0%nat)] /\ s_bd st = 0%nat /\ s_ctx st = [].
Definition flat_text (l : list (Z * Z)) : Prop := Forall (fun c => is_isolate c = false) (classes l).
Definition bracket_like (p : Z) (cur : scrap) : Prop := (clz cur = cBRACKO <-> p = cBRACKO) /\ (clz cur = cBRACKC <-> p = cBRACKC).
Lemma like_isbracket p cur : bracket_like p cur -> (p =? cBRACKO) || (p =? cBRACKC) = isbracket cur.
Proof.
  intros [A B]. unfold isbracket. destruct (Z.eqb_spec p cBRACKO), (Z.eqb_spec (clz cur) cBRACKO); try tauto; auto.
  destruct (Z.eqb_spec p cBRACKC), (Z.eqb_spec (clz cur) cBRACKC); tauto.
Qed.

Lemma flat_step h st cur al p : one h st -> lens_ok (s_rest st) -> flat_text (para (s_rest st)) -> plain_run cur -> bracket_like p cur ->
  0 <= sr cur -> sr cur + total (para (s_rest st)) < 2 ^ 32 ->
  (para (s_rest st) = [] /\ scan_step md props upper None st cur al = Some ([cur; stopper], None) /\ one h (snd (nextRune md props None st (sr cur)))) \/
  exists r len out st' cur' al',
    scan_step md props upper None st cur al = Some (out, Some (st', cur', al')) /\
    para (s_rest st) = (r, len) :: para (s_rest st') /\ lens_ok (s_rest st') /\ 0 <= len /\
    plain_run cur' /\ bracket_like (if eff r =? cNSM then p else eff r) cur' /\ sr cur' = sr cur + len /\
    (out = [] /\ clz cur <> cNULL /\ isbracket cur = false /\ isbracket cur' = false /\ one h st' \/
     out = (if clz cur =? cNULL then [] else [cur]) /\ sl cur' = sr cur /\
     one (if isbracket cur' then bd16_step h (r, cur') else h) st').
Proof.
  intros (O1 & O2 & O3 & O4) L F P K SR B. unfold scan_step. destruct (nextRune md props None st (sr cur)) as [inp st1] eqn:EN.
  cbn [nextRune] in EN. destruct (read_rune_spec md props upper _ _ _ EN L) as ((H1 & H2 & H3 & H4) & C1 & L1 & _ & _ & RR).
  assert (OO : one h st1) by (split; [congruence|split; [congruence|split; congruence]]).
  destruct inp as [[[r len] c]|].
  2: { left. split; [exact RR|]. rewrite P. cbn [obind snd]. auto. }
  right. destruct RR as (R1 & R2 & R3). rewrite R3. exists r, len.
  assert (LN : 0 <= len).
  { rewrite R1 in L. inversion L as [|? ? X _]; subst. exact X. }
  assert (TT : total (para (s_rest st)) = len + total (para (s_rest st1))) by (rewrite R2; reflexivity).
  assert (TP : 0 <= total (para (s_rest st1))) by (apply total_nonneg, para_lens; exact L1).
  assert (U : u32 (sr cur + len) = sr cur + len) by (unfold u32; apply Z.mod_small; lia).
  rewrite U. rewrite R2 in F. unfold flat_text, classes_of in F. cbn [map fst] in F. inversion F as [|? ? F1 F2]; subst.
  set (la := mks (applyRulesW1to3 (eff r) cur) (sr cur) (sr cur + len) dc0 []).
  assert (PL : plain_run la).
  { change (is_isolate (applyRulesW1to3 (eff r) cur) = false). unfold applyRulesW1to3. destruct (eff r =? cNSM).
    - destruct (clz cur =? cLRI); [reflexivity|]. destruct (clz cur =? cRLI); [reflexivity|]. destruct (clz cur =? cPDI); [reflexivity|exact P].
    - destruct (_ && _); [reflexivity|]. destruct (eff r =? cAL); [reflexivity|]. destruct ((eff r =? cS) || (eff r =? cWS) || (eff r =? cON)); [reflexivity|exact F1]. }
  assert (KL : bracket_like (if eff r =? cNSM then p else eff r) la).
  { unfold bracket_like. change (clz la) with (applyRulesW1to3 (eff r) cur). unfold applyRulesW1to3. destruct (eff r =? cNSM).
    - unfold plain_run, isisolate in P. repeat (apply orb_false_iff in P; destruct P as [P ?]).
      repeat match goal with X : (clz cur =? _) = false |- _ => rewrite X end. exact K.
    - destruct (Z.eqb_spec (eff r) cEN) as [E|E]; cbn [andb].
      + rewrite E. destruct (_ =? cAL); [split; split; discriminate|]. split; split; discriminate.
      + destruct (Z.eqb_spec (eff r) cAL) as [E1|E1]; [rewrite E1; split; split; discriminate|].
        destruct ((eff r =? cS) || (eff r =? cWS) || (eff r =? cON)) eqn:E2; [|tauto].
        repeat rewrite orb_true_iff in E2. rewrite !Z.eqb_eq in E2. destruct E2 as [[E2|E2]|E2]; rewrite E2; split; split; discriminate. }
  destruct (finished cur la) eqn:FI.
  - rewrite P, andb_false_r. cbn [obind]. rewrite PL. cbn [andb]. destruct OO as (Q1 & Q2 & Q3 & Q4). rewrite Q4.
    set (x := inheritStrongTypes la cur al).
    assert (CX : clz x = clz la) by reflexivity.
    unfold prepareRuleBD16. destruct (isbracket x) eqn:EB; cbn [negb].
    + rewrite Q1, Q3. cbn [nth_error obind nset h_bd h_first h_last h_next].
      match goal with |- exists _ _ _ _, Some (?o, Some (?s, ?c, ?a)) = _ /\ _ => exists o, s, c, a end.
      split; [reflexivity|]. split; [exact R2|]. split; [exact L1|]. split; [exact LN|]. split; [exact PL|]. split; [exact KL|]. split; [reflexivity|].
      right. split; [reflexivity|]. split; [reflexivity|]. fold x. rewrite EB. split; [reflexivity|]. cbn. auto.
    + cbn [obind]. match goal with |- exists _ _ _ _, Some (?o, Some (?s, ?c, ?a)) = _ /\ _ => exists o, s, c, a end.
      split; [reflexivity|]. split; [exact R2|]. split; [exact L1|]. split; [exact LN|]. split; [exact PL|]. split; [exact KL|]. split; [reflexivity|].
      right. split; [reflexivity|]. split; [reflexivity|]. fold x. rewrite EB. split; auto.
  - unfold finished in FI. repeat (apply orb_false_iff in FI; destruct FI as [FI ?]).
    match goal with |- exists _ _ _ _, Some (?o, Some (?s, ?c, ?a)) = _ /\ _ => exists o, s, c, a end.
    split; [reflexivity|]. split; [exact R2|]. split; [exact L1|]. split; [exact LN|]. split; [exact P|].
    apply Z.eqb_neq in FI. apply negb_false_iff, Z.eqb_eq in H5.
    split. { unfold bracket_like in *. cbn [collapse clz]. rewrite H5. exact KL. }
    split; [cbn [collapse sr la]; lia|]. left. split; [reflexivity|]. split; [exact FI|]. split; [auto|]. split; [|exact OO]. exact H0.
Qed.

Lemma flat_loop : forall n h st cur al p out st', one h st -> lens_ok (s_rest st) -> flat_text (para (s_rest st)) -> plain_run cur -> bracket_like p cur ->
  0 <= sr cur -> sr cur + total (para (s_rest st)) < 2 ^ 32 ->
  scan_loop md props upper None n st cur al = Ok out -> scan_final md props upper None n st cur al = Ok st' ->
  exists hd t es, out = hd ++ t ++ [stopper] /\ filter isbracket hd = (if isbracket cur then [cur] else []) /\
    map snd es = filter isbracket t /\ map view es = brackets_of p (sr cur) (para (s_rest st)) /\ one (bd16_run h es) st' /\
    Forall (fun e => eff (fst e) <> cNSM -> clz (snd e) = eff (fst e)) es.
Proof.
  induction n as [|n IH]; intros h st cur al p out st' O L F P K SR B H1 H2; [discriminate|]. cbn [scan_loop scan_final] in H1, H2.
  destruct (flat_step h st cur al p O L F P K SR B) as [(EP & ES & OO)|(r & len & o & st1 & cur1 & al1 & ES & EP & L1 & LN & P1 & K1 & SR1 & CS)].
  - rewrite ES in H1, H2. cbn [lift rbind] in H1, H2. injection H1 as <-. rewrite P in H2. cbn [lift] in H2. injection H2 as <-.
    exists [cur], [], []. rewrite EP. cbn. destruct (isbracket cur); auto 6.
  - rewrite ES in H1, H2. cbn [lift rbind] in H1, H2.
    destruct (scan_loop md props upper None n st1 cur1 al1) as [more| |] eqn:EM; try discriminate. cbn [rbind] in H1. injection H1 as <-.
    assert (F1 : flat_text (para (s_rest st1))) by (rewrite EP in F; inversion F; auto).
    assert (B1 : sr cur1 + total (para (s_rest st1)) < 2 ^ 32) by (rewrite EP in B; cbn [total snd] in B; unfold total in *; cbn in B; lia).
    pose proof (like_isbracket _ _ K1) as KB. rewrite EP. cbn [brackets_of]. rewrite KB.
    destruct CS as [(-> & NN & B0 & B2 & O1)|(-> & SL & O1)].
    + destruct (IH h st1 cur1 al1 _ more st' O1 L1 F1 P1 K1 ltac:(lia) B1 EM H2) as (hd & t & es & -> & X1 & X2 & X3 & X4 & X5).
      exists hd, t, es. rewrite B0. rewrite B2 in *. rewrite SR1 in X3. auto 6.
    + destruct (IH _ st1 cur1 al1 _ more st' O1 L1 F1 P1 K1 ltac:(lia) B1 EM H2) as (hd & t & es & -> & X1 & X2 & X3 & X4 & X5).
      exists (if clz cur =? cNULL then [] else [cur]), (hd ++ t), ((if isbracket cur1 then [(r, cur1)] else []) ++ es).
      split; [rewrite <- app_assoc; reflexivity|]. split.
      { destruct (Z.eqb_spec (clz cur) cNULL) as [E|E]; [|cbn; destruct (isbracket cur); reflexivity]. unfold isbracket. rewrite E. reflexivity. }
      rewrite filter_app, X1. rewrite SR1 in X3. split; [rewrite map_app, X2; destruct (isbracket cur1); reflexivity|].
      split; [rewrite map_app, X3; destruct (isbracket cur1); cbn; [unfold view; cbn; rewrite SL; reflexivity|reflexivity]|].
      split; [destruct (isbracket cur1); exact X4|]. destruct (isbracket cur1) eqn:EB; [|exact X5]. constructor; [|exact X5]. cbn [fst snd].
      intros NS. apply Z.eqb_neq in NS. rewrite NS in K1. unfold isbracket in EB. apply orb_true_iff in EB. rewrite !Z.eqb_eq in EB. destruct K1. destruct EB as [X|X]; rewrite X; symmetry; tauto.
Qed.

(* The handler of the scanner at rest, for a text without isolates: it has been given the brackets among
   the scraps, in order, each with its character. *)
Theorem scan_brackets input out st' : lens_ok input -> total (para input) < 2 ^ 32 -> flat_text (para input) ->
  Scan md props upper None input = Ok (out ++ [stopper]) -> ScanFinal md props upper None input = Ok st' ->
  exists es, map snd es = filter isbracket out /\ map view es = brackets_of cNULL 0 (para input) /\ one (bd16_run new_handler es) st' /\
    Forall (fun e => eff (fst e) <> cNSM -> clz (snd e) = eff (fst e)) es.
Proof.
  intros L B F H1 H2. destruct (initial_context md) as (I1 & I2 & I3).
  assert (I4 : sr (initialOuterScrap md false) = 0) by (unfold initialOuterScrap; destruct (m_r2l md); reflexivity).
  destruct (flat_loop _ new_handler (newScanner input) (initialOuterScrap md false) (-1) cNULL _ _ ltac:(split; auto) L F
    ltac:(unfold plain_run, isisolate; rewrite I2; reflexivity) ltac:(unfold bracket_like; rewrite I2; split; split; discriminate)
    ltac:(lia) ltac:(rewrite I4; exact B) H1 H2) as (hd & t & es & E & X1 & X2 & X3 & X4 & X5).
  exists es. rewrite app_assoc in E. apply app_inj_tail in E. destruct E as [-> _]. rewrite filter_app, X1. unfold isbracket at 1. rewrite I2. cbn [orb app].
  change (sr (initialOuterScrap md false)) with (sr (initialOuterScrap md false)) in X3. rewrite I4 in X3. auto.
Qed.

(* ---- looking up brackets ---- *)
Lemma one_find h st s : one h st -> findBracket st s =
  (match find_pairing (pairs h) s with Some p => Some (if clz s =? cBRACKO then pg_close p else pg_open p) | None => None end, st).
Proof.
  intros (O1 & O2 & O3 & O4). unfold findBracket, findBD16ForPos. rewrite O2, O1. cbn [irs_find obind length bd16_walk nth_error h_next h_bd].
  change (0 =? 0) with true. cbn [obind nth_error bd16_walk h_next h_bd]. destruct (find_pairing (pairs h) s); reflexivity.
Qed.
Lemma one_change h st s : one h st -> one (mkh (bstack h) (change_opening (pairs h) s)) (changeBracket st s).
Proof.
  intros (O1 & O2 & O3 & O4). unfold changeBracket, findBD16ForPos. rewrite O2, O1. cbn [irs_find obind length bd16_walk nth_error h_next h_bd].
  change (0 =? 0) with true. cbn [obind nth_error bd16_walk h_next h_bd]. split; [reflexivity|]. cbn. auto.
Qed.

(* What stays when opening brackets are resolved. *)
Definition pair_core (p : pairing) : Z * scrap := (sl (pg_open p), pg_close p).
Lemma change_core ps s : map pair_core (change_opening ps s) = map pair_core ps.
Proof. unfold change_opening. rewrite map_map. apply map_ext. intros p. unfold pair_core. destruct (_ =? _); reflexivity. Qed.
Lemma find_core s : clz s = cBRACKO -> forall ps qs, map pair_core ps = map pair_core qs -> option_map pair_core (find_pairing ps s) = option_map pair_core (find_pairing qs s).
Proof.
  intros C. induction ps as [|p ps IH]; intros [|q qs] E; try discriminate; [reflexivity|]. cbn [map] in E. injection E as E1 E2 E3. cbn [find_pairing]. rewrite C, Z.eqb_refl.
  rewrite E1. destruct (_ =? _); [cbn; unfold pair_core; rewrite E1, E2; reflexivity|auto].
Qed.
Lemma find_spec s : forall ps p, find_pairing ps s = Some p -> In p ps /\ (if clz s =? cBRACKO then sl (pg_open p) else sl (pg_close p)) = sl s.
Proof.
  induction ps as [|q ps IH]; intros p H; [discriminate|]. cbn [find_pairing] in H. destruct (clz s =? cBRACKO).
  - destruct (Z.eqb_spec (sl (pg_open q)) (sl s)); [injection H as <-; split; [left; auto|auto]|]. destruct (IH p H). split; [right|]; auto.
  - destruct (Z.eqb_spec (sl (pg_close q)) (sl s)); [injection H as <-; split; [left; auto|auto]|]. destruct (IH p H). split; [right|]; auto.
Qed.
Lemma find_none s : forall ps, find_pairing ps s = None -> Forall (fun p => (if clz s =? cBRACKO then sl (pg_open p) else sl (pg_close p)) <> sl s) ps.
Proof.
  induction ps as [|q ps IH]; intros H; [constructor|]. cbn [find_pairing] in H. destruct (clz s =? cBRACKO).
  - destruct (Z.eqb_spec (sl (pg_open q)) (sl s)); [discriminate|]. auto.
  - destruct (Z.eqb_spec (sl (pg_close q)) (sl s)); [discriminate|]. auto.
Qed.
End Scan.

(* Scraps at different positions. *)
Lemma strict_apart : forall l lo hi, tiles lo l hi -> Forall (fun s => sl s < sr s) l -> forall u a v u' b v', l = u ++ a :: v -> l = u' ++ b :: v' -> sl a = sl b -> u = u' /\ a = b /\ v = v'.
Proof.
  induction l as [|x l IH]; intros lo hi T F u a v u' b v' E1 E2 S; [destruct u; discriminate|]. destruct T as (T1 & T2 & T3). inversion F as [|? ? F1 F2]; subst.
  assert (LT : forall y, In y l -> sl x < sl y).
  { intros y I. pose proof (tiles_bounds _ _ _ T3) as TB. rewrite Forall_forall in TB. specialize (TB y I). cbn in TB. lia. }
  destruct u as [|c u]; destruct u' as [|d u']; cbn [app] in E1, E2; injection E1 as E1a E1b; injection E2 as E2a E2b.
  - split; [reflexivity|]. split; congruence.
  - exfalso. assert (I : In b l) by (rewrite E2b; apply in_or_app; right; left; auto). specialize (LT b I). rewrite E1a in LT. lia.
  - exfalso. assert (I : In a l) by (rewrite E1b; apply in_or_app; right; left; auto). specialize (LT a I). rewrite E2a in LT. lia.
  - destruct (IH _ _ T3 F2 u a v u' b v' E1b E2b S) as (-> & -> & ->). split; [congruence|auto].
Qed.

(* ---- every closing bracket is in one pair ---- *)
Lemma closes_run : forall es lo h, ascending lo (map view es) -> NoDup (map (fun p => sl (pg_close p)) (pairs h)) ->
  Forall (fun p => sl (pg_close p) < lo) (pairs h) -> NoDup (map (fun p => sl (pg_close p)) (pairs (bd16_run h es))).
Proof.
  induction es as [|[r s] es IH]; intros lo h A N F; [exact N|]. cbn [map view fst snd ascending] in A. destruct A as [A1 A2].
  cbn [bd16_run fold_left]. apply (IH (sl s + 1) _ A2); unfold bd16_step.
  - destruct (negb _); [exact N|]. destruct (clz s =? cBRACKO); [unfold push_opening; destruct (bs_push _ _ _); exact N|].
    unfold find_pair. destruct (pop_with _ _) as [[b bs]|]; [|exact N]. cbn [snd pairs]. set (i := find_inx _ _ _ _).
    rewrite map_app. cbn [map pg_close]. eapply Permutation_NoDup; [apply Permutation_middle|]. rewrite <- map_app, firstn_skipn.
    constructor; [|exact N]. intros X. apply in_map_iff in X. destruct X as (p & E & I). rewrite Forall_forall in F. specialize (F p I). cbn in F. lia.
  - assert (F' : Forall (fun p => sl (pg_close p) < sl s + 1) (pairs h)) by (eapply Forall_impl; [|exact F]; cbn; intros; lia).
    destruct (negb _); [exact F'|]. destruct (clz s =? cBRACKO); [unfold push_opening; destruct (bs_push _ _ _); exact F'|].
    unfold find_pair. destruct (pop_with _ _) as [[b bs]|]; [|exact F']. cbn [snd pairs]. set (i := find_inx _ _ _ _).
    rewrite <- (firstn_skipn i (pairs h)) in F'. apply Forall_app in F'. destruct F'. apply Forall_app. split; auto. constructor; auto. cbn. lia.
Qed.
Lemma closes_class es : forall h, Forall (fun p => clz (pg_close p) = cBRACKC) (pairs h) -> Forall (fun p => clz (pg_close p) = cBRACKC) (pairs (bd16_run h es)).
Proof.
  induction es as [|[r s] es IH]; intros h F; [exact F|]. cbn [bd16_run fold_left]. apply IH. unfold bd16_step.
  destruct (isbracket s) eqn:EB; [|exact F]. cbn [negb]. destruct (clz s =? cBRACKO) eqn:EO; [unfold push_opening; destruct (bs_push _ _ _); exact F|].
  unfold find_pair. destruct (pop_with _ _) as [[b bs]|]; [|exact F]. cbn [snd pairs]. set (i := find_inx _ _ _ _).
  rewrite <- (firstn_skipn i (pairs h)) in F. apply Forall_app in F. destruct F. apply Forall_app. split; auto. constructor; auto.
  cbn. unfold isbracket in EB. rewrite EO in EB. apply Z.eqb_eq. exact EB.
Qed.

(* Looking up a closing bracket finds its pair. *)
Lemma find_close s : forall ps p, NoDup (map (fun p => sl (pg_close p)) ps) -> In p ps -> clz s <> cBRACKO -> sl (pg_close p) = sl s -> find_pairing ps s = Some p.
Proof.
  induction ps as [|q ps IH]; intros p N I C E; [destruct I|]. cbn [find_pairing]. apply Z.eqb_neq in C. rewrite C. inversion N as [|? ? N1 N2]; subst.
  destruct I as [->|I]; [rewrite E, Z.eqb_refl; reflexivity|].
  destruct (Z.eqb_spec (sl (pg_close q)) (sl s)) as [X|X]; [|apply IH; auto; apply Z.eqb_neq; exact C].
  exfalso. apply N1. apply in_map_iff. exists p. split; [congruence|auto].
Qed.

Lemma change_in ps s p : In p ps -> sl (pg_open p) = sl s ->
  In (mkpg (mkbp (with_clz (pg_open p) (clz s)) (bp_pair (pg_brk p))) (pg_close p)) (change_opening ps s).
Proof. intros I E. unfold change_opening. apply in_map_iff. exists p. rewrite E, Z.eqb_refl. auto. Qed.
Lemma change_closes ps s : map (fun p => sl (pg_close p)) (change_opening ps s) = map (fun p => sl (pg_close p)) ps.
Proof. unfold change_opening. rewrite map_map. apply map_ext. intros p. destruct (_ =? _); reflexivity. Qed.

Lemma ascending_filter : forall l lo hi, tiles lo l hi -> Forall (fun s => sl s < sr s) l ->
  forall es, map snd es = filter isbracket l -> ascending lo (map view es).
Proof.
  assert (W : forall t a b, a <= b -> ascending b t -> ascending a t).
  { destruct t as [|[r p] t]; [auto|]. cbn. intros a b LE [X Y]. split; [lia|exact Y]. }
  induction l as [|s l IH]; intros lo hi T F es E.
  - cbn in E. destruct es; [exact I|discriminate].
  - destruct T as (T1 & T2 & T3). inversion F as [|? ? F1 F2]; subst. cbn [filter] in E. destruct (isbracket s).
    + destruct es as [|[r x] es]; [discriminate|]. cbn [map snd] in E. injection E as E1 E2. subst x. cbn [map view fst snd ascending]. split; [lia|].
      apply (W _ _ (sr s)); [lia|]. apply (IH _ _ T3 F2 _ E2).
    + apply (W _ _ (sr s)); [lia|]. apply (IH _ _ T3 F2 _ E).
Qed.

(* ---- rule N0 ---- *)
Section N0.
Context (md : mode) (props : Z -> Z * Z) (upper : Z -> bool).
Notation eff := (eff md props upper).
Notation para := (para md props).

(* The store after some opening brackets have been resolved. *)
Definition changed (st : scst) (l : list scrap) : scst := fold_left changeBracket l st.
Lemma one_changed : forall l h st, one h st -> exists h', one h' (changed st l) /\ map pair_core (pairs h') = map pair_core (pairs h) /\
  map (fun p => sl (pg_close p)) (pairs h') = map (fun p => sl (pg_close p)) (pairs h).
Proof.
  induction l as [|s l IH]; intros h st O; [exists h; auto|]. cbn [changed fold_left].
  destruct (IH _ _ (one_change h st s O)) as (h' & O' & E & E2). exists h'. split; [exact O'|]. cbn [pairs] in E, E2. rewrite change_core in E. rewrite change_closes in E2. auto.
Qed.

Theorem text_n0 input r len rest : props_ok props -> lens_ok input -> total (para input) < 65536 ->
  para input = (r, len) :: rest -> eff r <> cNSM -> simple md props upper (para input) ->
  exists ss st, Scan md props upper None input = Ok (ss ++ [stopper]) /\ ScanFinal md props upper None input = Ok st /\
    forall u o t l p, ss = u ++ o :: t -> clz o = cBRACKO -> p_store p = changed st l -> nth_error (p_stack p) (p_sp p) = Some o ->
      match fst (findBracket st o) with
      | None => exists p', performRuleN0 findBracket changeBracket p = Some (p', 1) /\ p_stack p' = p_stack p /\ p_sp p' = p_sp p /\ p_store p' = p_store p
      | Some c => exists w v k p' jmp, t = w ++ c :: v /\ clz c = cBRACKC /\
          performRuleN0 findBracket changeBracket p = Some (p', jmp) /\ p_stack p' = nset (p_stack p) (p_sp p) (with_clz o k) /\ p_sp p' = p_sp p /\
          p_store p' = changed st (l ++ [with_clz o k]) /\
          (let e := outer md in
           let s := match u with [] => e | _ => last_strong cL (map clz u) end in
           let inside := map clz w in
           k = n0 e s inside \/ k = e /\ s = e /\ existsb (Z.eqb e) inside = false /\ existsb (Z.eqb (opposite e)) inside = false) /\
          exists o', fst (findBracket (p_store p') c) = Some o' /\ sl o' = sl o /\ clz o' = k
      end.
Proof.
  intros PO L B EP EF SI. destruct (scan_n0 md props upper input r len rest PO L B EP EF SI) as (ss & E & N).
  destruct (scan_simple md props upper input r len rest PO L ltac:(lia) EP EF SI) as (ss' & E' & T & F).
  assert (ss' = ss) as -> by (rewrite E in E'; injection E' as E'; apply app_inj_tail in E'; symmetry; tauto). clear E'.
  destruct (ScanFinal_ok md props upper None input L ltac:(lia)) as (st & ES & _).
  exists ss, st. split; [exact E|]. split; [exact ES|].
  assert (FT : flat_text md props upper (para input)) by (destruct SI as [S1 _]; eapply Forall_impl; [|exact S1]; cbn; tauto).
  destruct (scan_brackets md props upper input ss st L ltac:(lia) FT E ES) as (es & M1 & M2 & O & _).
  assert (FS : Forall (fun s => sl s < sr s) ss) by (eapply Forall_impl; [|exact F]; cbn; tauto).
  pose proof (ascending_filter _ _ _ T FS es M1) as AS.
  set (h := bd16_run new_handler es) in *.
  assert (ND : NoDup (map (fun p => sl (pg_close p)) (pairs h))) by (apply (closes_run es 0 new_handler AS); constructor).
  assert (CC : Forall (fun p => clz (pg_close p) = cBRACKC) (pairs h)) by (apply closes_class; constructor).
  destruct (given_new es) as [_ GV]. fold h in GV.
  intros u o t l p EU CO EPS EN. rewrite (one_find h st o O). cbn [fst].
  destruct (one_changed l h st O) as (h' & O' & HC & HC2).
  assert (FE : fst (findBracket (changed st l) o) = match find_pairing (pairs h) o with Some p => Some (pg_close p) | None => None end).
  { rewrite (one_find h' _ o O'). cbn [fst]. rewrite CO, Z.eqb_refl. pose proof (find_core o CO _ _ HC) as X.
    destruct (find_pairing (pairs h') o) as [a|], (find_pairing (pairs h) o) as [b|]; try discriminate; [|reflexivity]. cbn in X. injection X as X1 X2. rewrite X2. reflexivity. }
  assert (FB : findBracket (changed st l) o = (match find_pairing (pairs h) o with Some p => Some (pg_close p) | None => None end, changed st l)).
  { rewrite <- FE. unfold findBracket. reflexivity. }
  unfold performRuleN0. rewrite EN. cbn [obind]. rewrite EPS, FB, CO, Z.eqb_refl.
  destruct (find_pairing (pairs h) o) as [pg|] eqn:EF2.
  2: { eexists. split; [reflexivity|]. cbn. auto. }
  destruct (find_spec o _ _ EF2) as [IP SP]. rewrite CO, Z.eqb_refl in SP.
  set (c := pg_close pg) in *.
  assert (PB : exists w v, pg_open pg = o /\ t = w ++ c :: v).
  { rewrite Forall_forall in GV. destruct (before_filter isbracket es ss _ _ M1 (GV pg IP)) as (u1 & w1 & v1 & EQ).
    destruct (strict_apart _ _ _ T FS _ _ _ _ _ _ EQ EU SP) as (-> & EO & <-). exists w1, v1. auto. }
  destruct PB as (w & v & EO & ->).
  specialize (N u o w c v EU ltac:(unfold isbracket; rewrite CO; reflexivity)). cbv zeta in N. unfold n0_code in N.
  set (cj := if has_match_after c o then (se o, -2) else if has_opposite_after c o then (if dcStrong (sctx o) =? so o then so o else se o, -2) else (cNI, -1)).
  set (k := if has_match_after c o then se o else if has_opposite_after c o then (if dcStrong (sctx o) =? so o then so o else se o) else cNI) in N.
  assert (CK : fst cj = k) by (unfold cj, k; destruct (has_match_after c o); [reflexivity|]; destruct (has_opposite_after c o); reflexivity).
  fold cj. destruct cj as [k0 jmp]. cbn in CK. subst k0.
  exists w, v, k. eexists. exists jmp. split; [reflexivity|]. split; [rewrite Forall_forall in CC; exact (CC pg IP)|]. split; [reflexivity|].
  split; [reflexivity|]. split; [reflexivity|]. cbn [with_store p_store].
  split; [unfold changed; rewrite fold_left_app; reflexivity|]. split; [exact N|].
  (* the closing bracket *)
  pose proof (one_change h' _ (with_clz o k) O') as O2. rewrite (one_find _ _ c O2). cbn [fst pairs].
  assert (C2 : clz c <> cBRACKO) by (rewrite Forall_forall in CC; unfold c; rewrite (CC pg IP); discriminate).
  assert (exists q, In q (pairs h') /\ pair_core q = pair_core pg) as (q & IQ & EQ).
  { assert (X : In (pair_core pg) (map pair_core (pairs h'))) by (rewrite HC; apply in_map; exact IP). apply in_map_iff in X. destruct X as (q & A1 & A2). eauto. }
  injection EQ as Q1 Q2.
  rewrite (find_close c _ (mkpg (mkbp (with_clz (pg_open q) k) (bp_pair (pg_brk q))) (pg_close q))).
  - apply Z.eqb_neq in C2. rewrite C2. eexists. split; [reflexivity|]. cbn. split; [congruence|reflexivity].
  - rewrite change_closes, HC2. exact ND.
  - apply (change_in _ (with_clz o k) q IQ). cbn. congruence.
  - exact C2.
  - cbn [pg_close]. rewrite Q2. reflexivity.
Qed.

(* ---- BD16 ---- *)
Theorem text_bd16 input r len rest : props_ok props -> lens_ok input -> total (para input) < 2 ^ 32 ->
  para input = (r, len) :: rest -> eff r <> cNSM -> simple md props upper (para input) ->
  let bs := brackets_of md props upper cNULL 0 (para input) in
  Forall (fun x => eff x = cBRACKO /\ is_op x = true \/ eff x = cBRACKC /\ is_cl x = true) (map fst bs) ->
  no_mix canon13 (map fst bs) (map fst bs) -> bd_fits uax9BracketPairs canon13 [] bs = true ->
  exists ss st, Scan md props upper None input = Ok (ss ++ [stopper]) /\ ScanFinal md props upper None input = Ok st /\
    map sl (filter isbracket ss) = map snd bs /\
    forall s, In s ss -> isbracket s = true ->
      match fst (findBracket st s) with
      | Some x => In x ss /\ In (if clz s =? cBRACKO then (sl s, sl x) else (sl x, sl s)) (bd16 uax9BracketPairs canon13 [] bs)
      | None => forall q, In q (bd16 uax9BracketPairs canon13 [] bs) -> (if clz s =? cBRACKO then fst q else snd q) <> sl s
      end.
Proof.
  intros PO L B EP EF SI bs FB NM FI.
  destruct (scan_simple md props upper input r len rest PO L B EP EF SI) as (ss & E & T & F).
  destruct (ScanFinal_ok md props upper None input L B) as (st & ES & _).
  exists ss, st. split; [exact E|]. split; [exact ES|].
  assert (FT : flat_text md props upper (para input)) by (destruct SI as [S1 _]; eapply Forall_impl; [|exact S1]; cbn; tauto).
  destruct (scan_brackets md props upper input ss st L B FT E ES) as (es & M1 & M2 & O & CL). fold bs in M2.
  assert (FS : Forall (fun s => sl s < sr s) ss) by (eapply Forall_impl; [|exact F]; cbn; tauto).
  pose proof (ascending_filter _ _ _ T FS es M1) as AS.
  assert (RS : map fst es = map fst bs) by (rewrite <- M2, map_map; apply map_ext; intros []; reflexivity).
  assert (BC : Forall bracket_char es).
  { rewrite <- RS in FB. apply Forall_map in FB. rewrite Forall_forall in *. intros e I. specialize (FB e I). specialize (CL e I). cbn beta in FB, CL.
    destruct FB as [[X Y]|[X Y]]; rewrite X in CL; specialize (CL ltac:(discriminate)); [left|right; left]; (split; [exact CL|]); [apply is_op_spec|apply is_cl_spec]; exact Y. }
  assert (UM : unmixed es) by (unfold unmixed; rewrite RS; exact NM).
  split. { rewrite <- M1, <- M2, !map_map. reflexivity. }
  intros s IS BS. rewrite (one_find _ st s O). cbn [fst].
  pose proof (bd16_found es s BC UM ltac:(rewrite M2; exact FI) AS) as BF. rewrite M2 in BF.
  destruct (find_pairing (pairs (bd16_run new_handler es)) s) as [p|] eqn:EF2; [|exact BF].
  destruct BF as (BF1 & BF2 & _). destruct (find_spec s _ _ EF2) as [IP _].
  destruct (given_new es) as [_ GV]. rewrite Forall_forall in GV. destruct (before_filter isbracket es ss _ _ M1 (GV p IP)) as (u & w & v & EQ).
  unfold pview in BF1, BF2. cbn [fst snd] in BF2. destruct (clz s =? cBRACKO).
  - split; [rewrite EQ; apply in_or_app; right; right; apply in_or_app; right; left; auto|]. rewrite <- BF2. exact BF1.
  - split; [rewrite EQ; apply in_or_app; right; left; auto|]. rewrite <- BF2. exact BF1.
Qed.
End N0.
