(* ResolverText.v -- from the text to the resolved runs, for texts without isolates. *)
From Coq Require Import List ZArith Lia Bool Permutation.
From Verif Require Import Base Scrap Brackets Trie Rules RuleProofs Reorder ReorderSpec ReorderProofs SplitProofs Scanner ScannerProofs Resolver ResolverProofs ResolverFlat.
Import ListNotations.
Open Scope Z_scope.

(* ---- the texts ----
   [cs] are the classes of the characters (function eff of ScannerProofs.v), before rules W1 to W7.
   [st] is the last strong class, but AL once an AL has occurred; [prev] the class of the character
   before, where a non-spacing mark counts as the character it belongs to. *)
Definition strong_after (st c : Z) : Z :=
  if (st =? cAL) || (c =? cAL) then cAL else if c =? cL then cL else if c =? cR then cR else st.
Definition is_isolate (c : Z) : bool := (c =? cLRI) || (c =? cRLI) || (c =? cFSI) || (c =? cPDI).
Definition raw_neutral (c : Z) : bool :=
  (c =? cS) || (c =? cWS) || (c =? cON) || (c =? cNI) || (c =? cBRACKO) || (c =? cBRACKC) || (c =? cES) || (c =? cET) || (c =? cCS).
Fixpoint calm (rtl : bool) (st prev : Z) (cs : list Z) : bool :=
  match cs with
  | [] => true
  | c :: t =>
      let k := if c =? cNSM then prev else c in
      negb (is_isolate c) && negb ((k =? cEN) && negb (st =? cL)) &&
      (if rtl then negb ((k =? cAN) && raw_neutral prev) else negb ((k =? cR) || (k =? cAL))) &&
      calm rtl (strong_after st k) k t
  end.

Lemma forall_nset {A} (P : A -> Prop) l i x : Forall P l -> P x -> Forall P (nset l i x).
Proof.
  intros F H. apply Forall_forall. intros y I. apply In_nth_error in I. destruct I as [k I]. rewrite nth_nset in I.
  rewrite Forall_forall in F. destruct (i =? k)%nat.
  - destruct (i <? length l)%nat; [injection I as <-; exact H|discriminate].
  - apply F, (nth_error_In _ _ I).
Qed.

(* ---- the handlers of the scanner at its end ---- *)
Definition tame_h (h : handler) : Prop :=
  Forall (fun b => clz (bp_open b) = cBRACKO) (bstack h) /\ Forall (fun p => clz (pg_open p) = cBRACKO) (pairs h).
Definition tame (st : scst) : Prop := Forall (fun h => tame_h (h_bd h)) (s_hs st).

Lemma tame_bd h e : tame_h h -> tame_h (bd16_step h e).
Proof.
  intros [T1 T2]. destruct e as [r s]. unfold bd16_step. destruct (negb _); [split; auto|].
  destruct (clz s =? cBRACKO) eqn:E.
  - unfold push_opening, bs_push. destruct (_ <=? _); [split; auto|]. destruct (negb _); [split; auto|].
    destruct (find_opening _ _); [|split; auto]. split; cbn; auto. apply Forall_app. split; auto.
    constructor; auto. cbn. apply Z.eqb_eq. exact E.
  - unfold find_pair, pop_with.
    assert (P : forall n b bs, pop_loop (bstack h) r n = Some (b, bs) -> In b (bstack h) /\ exists i, bs = firstn i (bstack h)).
    { induction n as [|n IH]; [discriminate|]. cbn [pop_loop]. intros b bs. destruct (nth_error (bstack h) n) as [x|] eqn:X; [|discriminate].
      destruct (_ =? r); [|auto]. intros Y. injection Y as <- <-. split; [apply (nth_error_In _ _ X)|eauto]. }
    destruct (pop_loop _ _ _) as [[b bs]|] eqn:EP; [|split; auto]. destruct (P _ _ _ EP) as [I (i & ->)].
    rewrite Forall_forall in T1. cbn [snd]. split; cbn [bstack pairs].
    + apply Forall_forall. intros x X. apply T1. rewrite <- (firstn_skipn i). apply in_or_app. auto.
    + set (k := find_inx _ _ _ _). rewrite <- (firstn_skipn k (pairs h)) in T2. apply Forall_app in T2. destruct T2 as [A B].
      apply Forall_app. split; auto. constructor; auto. cbn. apply T1. exact I.
Qed.

Lemma tame_switch st s st' : handleIsolatingRunSwitch st s = Some st' -> tame st -> tame st'.
Proof.
  unfold handleIsolatingRunSwitch, tame. intros H T. destruct (clz s =? cPDI).
  - destruct (s_stack st) as [|k0 ks] eqn:ES; [injection H as <-; auto|].
    destruct (nth_error (s_hs st) (s_bd st)) as [h|] eqn:EH; [|discriminate]. cbn [obind] in H.
    set (bd := match removelast _ with [] => _ | _ => _ end) in H. destruct bd as [bd|]; [|discriminate].
    injection H as <-. cbn. apply forall_nset; auto. cbn. rewrite Forall_forall in T. apply (T h), (nth_error_In _ _ EH).
  - destruct (irs_find _ _) as [i0|]; [|discriminate]. cbn [obind] in H.
    destruct (last_irs _ _ _) as [i|]; [|discriminate]. cbn [obind] in H.
    destruct (nth_error (s_hs st) i) as [h|] eqn:EH; [|discriminate]. cbn [obind] in H.
    injection H as <-. cbn. apply Forall_app. split.
    + apply forall_nset; auto. cbn. rewrite Forall_forall in T. apply (T h), (nth_error_In _ _ EH).
    + constructor; [|constructor]. split; constructor.
Qed.

Lemma tame_prepare st r s st' : prepareRuleBD16 st r s = Some st' -> tame st -> tame st'.
Proof.
  unfold prepareRuleBD16, tame. intros H T. destruct (negb _); [injection H as <-; auto|].
  destruct (nth_error (s_hs st) (s_bd st)) as [h|] eqn:EH; [|discriminate]. cbn [obind] in H. injection H as <-. cbn [s_hs].
  apply forall_nset; auto. cbn [h_bd]. apply (tame_bd (h_bd h) (r, s)). rewrite Forall_forall in T. apply (T h), (nth_error_In _ _ EH).
Qed.

Lemma tame_same a b : same_h a b -> tame a -> tame b.
Proof. intros (A & _) T. unfold tame in *. rewrite <- A. exact T. Qed.

Lemma tiles_positions : forall ss a b, tiles a ss b -> positions ss = zrange a b.
Proof.
  induction ss as [|s t IH]; intros a b T.
  - cbn in T. subst b. symmetry. apply zrange_nil. lia.
  - destruct T as (A & B & T). pose proof (tiles_le _ _ _ T). cbn [positions flat_map]. change (flat_map _ t) with (positions t).
    rewrite (IH _ _ T), A. symmetry. apply zrange_app; lia.
Qed.

Lemma tiles_proper : forall ss a b, tiles a ss b -> 0 <= a -> b < 2 ^ 32 -> Forall (fun s => clz s <> cNULL) ss -> scraps_ok ss.
Proof.
  induction ss as [|s t IH]; intros a b T A B N; [constructor|]. destruct T as (T1 & T2 & T). pose proof (tiles_le _ _ _ T).
  inversion N as [|? ? N1 N2]; subst. constructor; [|apply (IH _ _ T); auto; lia]. split; [lia|]. split; [lia|]. split; [lia|exact N1].
Qed.

(* The runs made from resolved levels cover the text once. *)
Lemma resolved_runs md tot lv : resolved md tot lv -> tot < 2 ^ 32 ->
  exists runs, Reorder lv = Some runs /\ Forall run_ok runs /\ alternating None runs /\
    Permutation (flat_map (fun r => positions (r_scraps r)) runs) (zrange 0 tot).
Proof.
  intros (E & (body & EB & FB) & T & FL) B.
  assert (OK : scraps_ok (lv_scraps lv)).
  { apply (tiles_proper _ 0 tot); auto; [lia|]. rewrite EB. constructor; [unfold initial, initialOuterScrap; destruct (m_r2l md); discriminate|].
    apply Forall_app. split; [|constructor; [discriminate|constructor]]. eapply Forall_impl; [|exact FB].
    intros s ((_ & X) & _). unfold cMAX in X. unfold cNULL. lia. }
  destruct (Reorder_flat lv FL OK) as (runs & E1 & E2 & E3 & _). exists runs. split; auto. split; auto. split; auto.
  rewrite <- (tiles_positions _ _ _ T). apply (runs_once lv runs FL OK E1).
Qed.

Section Text.
Context (md : mode) (props : Z -> Z * Z) (upper : Z -> bool).
Notation eff := (eff md props upper).
Notation para := (para md props).

Section Final.
Context (markup : option (Z -> Z)).
Lemma tame_step st cur al out st' cur' al' : lens_ok (s_rest st) ->
  scan_step md props upper markup st cur al = Some (out, Some (st', cur', al')) -> tame st -> tame st'.
Proof.
  unfold scan_step. intros L H T. destruct (nextRune md props markup st (sr cur)) as [inp st1] eqn:EN.
  destruct (nextRune_spec md props upper markup _ _ _ _ EN L) as (SH & _). pose proof (tame_same _ _ SH T) as T1.
  destruct inp as [[[r len] c]|].
  - destruct (finished _ _); [|injection H as <- <- <- <-; auto].
    destruct (if negb (clz cur =? cNULL) && isisolate cur then _ else _) as [st2|] eqn:E2; [|discriminate]. cbn [obind] in H.
    assert (T2 : tame st2).
    { destruct (_ && _); [apply (tame_switch _ _ _ E2); auto|injection E2 as <-; auto]. }
    set (pr := if isisolate _ && _ then _ else _) in H.
    assert (T3 : tame (fst pr)).
    { unfold pr. match goal with |- tame (fst (if ?b then _ else _)) => destruct b end; [exact T2|]. destruct (s_ctx st2) as [|x t]; [exact T2|]. destruct (clz cur =? cPDI); exact T2. }
    destruct pr as [st3 cur3]. cbn [fst] in T3.
    destruct (prepareRuleBD16 _ _ _) as [st4|] eqn:E4; [|discriminate]. cbn [obind] in H. injection H as <- <- <- <-.
    apply (tame_prepare _ _ _ _ E4); auto.
  - destruct (if isisolate cur then _ else _); discriminate.
Qed.

Lemma final_ok : forall n st cur al,
  hok st -> lens_ok (s_rest st) -> 0 <= sr cur -> sr cur + total (para (s_rest st)) < 2 ^ 32 -> tame st -> (mu st (sr cur) < n)%nat ->
  exists st', scan_final md props upper markup n st cur al = Ok st' /\ tame st'.
Proof.
  induction n as [|n IH]; intros st cur al H L P B T M; [lia|]. cbn [scan_final].
  destruct (step_spec md props upper markup st cur al H L P B)
    as [[-> EP]|(out & st' & cur' & al' & r & len & c & st1 & E & RD & R1 & LN & TT & MU & SR & FT)]; cbn [lift rbind].
  - destruct (nextRune md props markup st (sr cur)) as [inp st1] eqn:EN. cbn [snd].
    destruct (nextRune_spec md props upper markup _ _ _ _ EN L) as (SH & _).
    destruct (isisolate cur).
    + destruct (switch_ok st1 cur (hok_same _ _ SH H)) as (st2 & E2 & _). rewrite E2. exists (at_rest st2). split; [reflexivity|].
      apply (tame_switch _ _ _ E2), (tame_same _ _ SH T).
    + exists (at_rest st1). split; [reflexivity|]. apply (tame_same _ _ SH T).
  - pose proof (tame_step _ _ _ _ _ _ _ L E T) as T'. rewrite E. cbn [lift rbind].
    destruct RD as (H' & L' & _). apply IH; auto; lia.
Qed.

Lemma ScanFinal_ok input : lens_ok input -> total (para input) < 2 ^ 32 ->
  exists st, ScanFinal md props upper markup input = Ok st /\ tame st.
Proof.
  intros L B. unfold ScanFinal.
  assert (CR : sr (initialOuterScrap md false) = 0) by (unfold initialOuterScrap; destruct (m_r2l md); reflexivity).
  apply final_ok.
  - apply new_ok.
  - exact L.
  - rewrite CR. lia.
  - rewrite CR. exact B.
  - repeat constructor.
  - rewrite CR, mu_start. lia.
Qed.
End Final.

(* ---- the store of the parser ---- *)
Section Inst.
Context (rtl : bool).
Definition SI (st : scst) : Prop :=
  Forall (fun h => Forall (fun p => K rtl (clz (pg_open p)) \/ clz (pg_open p) = cNI \/ clz (pg_open p) = cBRACKO) (pairs (h_bd h))) (s_hs st).
Lemma tame_SI st : tame st -> SI st.
Proof. apply Forall_impl. intros h [_ T]. eapply Forall_impl; [|exact T]. cbn. auto. Qed.

Lemma find_ok b s a b' : SI b -> findBracket b s = (a, b') -> SI b' /\
  (clz s = cBRACKC -> forall o, a = Some o -> K rtl (clz o) \/ clz o = cNI \/ clz o = cBRACKO).
Proof.
  unfold findBracket. intros S H. injection H as <- <-. split; auto. intros C o. rewrite C. change (cBRACKC =? cBRACKO) with false. cbn [obind].
  destruct (findBD16ForPos b (sl s)) as [i|]; [|discriminate]. cbn [obind].
  destruct (nth_error (s_hs b) i) as [h|] eqn:EH; [|discriminate]. cbn [obind].
  assert (F : forall ps p, find_pairing ps s = Some p -> In p ps).
  { induction ps as [|q ps IH]; [discriminate|]. cbn [find_pairing]. intros p. destruct (clz s =? cBRACKO).
    - destruct (_ =? _); [intros X; injection X as <-; left; auto|right; auto].
    - destruct (_ =? _); [intros X; injection X as <-; left; auto|right; auto]. }
  destruct (find_pairing _ s) as [p|] eqn:EP; [|discriminate]. cbn [obind]. intros X. injection X as <-.
  unfold SI in S. rewrite Forall_forall in S. specialize (S h (nth_error_In _ _ EH)). rewrite Forall_forall in S.
  apply S, F, EP.
Qed.

Lemma change_ok b s : SI b -> K rtl (clz s) \/ clz s = cNI -> SI (changeBracket b s).
Proof.
  unfold changeBracket. intros S C. destruct (findBD16ForPos b (sl s)) as [i|]; [|exact S]. cbn [obind].
  destruct (nth_error (s_hs b) i) as [h|] eqn:EH; [|exact S]. cbn [obind]. unfold SI in *. cbn [s_hs].
  apply forall_nset; auto. cbn [h_bd pairs]. rewrite Forall_forall in S. specialize (S h (nth_error_In _ _ EH)).
  unfold change_opening. apply Forall_map. eapply Forall_impl; [|exact S]. intros p X. cbn beta.
  destruct (_ =? _); [|exact X]. cbn. tauto.
Qed.

(* ---- the invariant of the scanner ---- *)
Definition norm (c : Z) : Z := if c =? cAL then cR else if (c =? cS) || (c =? cWS) || (c =? cON) then cNI else c.
Definition after (cur : scrap) : Z := if clz cur =? cL then cL else if clz cur =? cR then cR else strong (sctx cur).
Definition classes_of (l : list (Z * Z)) : list Z := map (fun x => eff (fst x)) l.
Definition SC (st : scst) (cur : scrap) (al : Z) : Prop := exists s p,
  calm rtl s p (classes_of (para (s_rest st))) = true /\
  s_ctx st = [] /\ kids cur = [] /\ edir (sctx cur) = outer md /\ clz cur = norm p /\ is_isolate p = false /\
  (s = cAL \/ al < 0 /\ s = after cur /\ strong (sctx cur) <> cAL) /\
  (rtl = false -> s = cL /\ strong (sctx cur) = cL /\ al < 0 /\ clz cur <> cR) /\
  (clz cur = cNULL \/ is_class (clz cur) /\ (clz cur = cEN -> strong (sctx cur) = cL)).

Definition SQ (s : scrap) : Prop := base1 md s /\ (rtl = false -> only_l s).
Definition SR (a b : scrap) : Prop := et_ok a b /\ (rtl = true -> an_ok a b).

Lemma calm_cons s p c t : calm rtl s p (c :: t) = true ->
  let k := if c =? cNSM then p else c in
  is_isolate c = false /\ (k = cEN -> s = cL) /\ (rtl = true -> k = cAN -> raw_neutral p = false) /\
  (rtl = false -> k <> cR /\ k <> cAL) /\ calm rtl (strong_after s k) k t = true.
Proof.
  intros H. cbn [calm] in H. set (k := if c =? cNSM then p else c) in *. cbv zeta.
  apply andb_true_iff in H. destruct H as [H H4]. apply andb_true_iff in H. destruct H as [H H3].
  apply andb_true_iff in H. destruct H as [H1 H2]. apply negb_true_iff in H1. split; auto. split; [|split; [|split; [|exact H4]]].
  - intros E. rewrite E in H2. change (cEN =? cEN) with true in H2. cbn [andb] in H2. rewrite negb_involutive in H2. apply Z.eqb_eq. exact H2.
  - intros -> E. rewrite E in H3. change (cAN =? cAN) with true in H3. cbn [andb] in H3. apply negb_true_iff. exact H3.
  - intros ->. apply negb_true_iff, orb_false_iff in H3. destruct H3 as [A B]. apply Z.eqb_neq in A, B. auto.
Qed.

Lemma norm_ntr c : ntr (norm c) = raw_neutral c.
Proof.
  unfold norm, ntr, raw_neutral. destruct (Z.eqb_spec c cAL) as [->|_]; [reflexivity|].
  destruct (Z.eqb_spec c cS) as [->|_]; [reflexivity|]. destruct (Z.eqb_spec c cWS) as [->|_]; [reflexivity|].
  destruct (Z.eqb_spec c cON) as [->|_]; [reflexivity|]. reflexivity.
Qed.
Lemma norm_isolate c : is_isolate (norm c) = is_isolate c.
Proof.
  unfold norm. destruct (Z.eqb_spec c cAL) as [->|_]; [reflexivity|].
  destruct (Z.eqb_spec c cS) as [->|_]; [reflexivity|]. destruct (Z.eqb_spec c cWS) as [->|_]; [reflexivity|].
  destruct (Z.eqb_spec c cON) as [->|_]; reflexivity.
Qed.
Lemma norm_L c : norm c = cL -> c = cL.
Proof. unfold norm. destruct (c =? cAL); [discriminate|]. destruct (_ || _); [discriminate|]. auto. Qed.
Lemma norm_R c : norm c = cR -> c = cR \/ c = cAL.
Proof. unfold norm. destruct (Z.eqb_spec c cAL); [auto|]. destruct (_ || _); [discriminate|]. auto. Qed.
Lemma norm_EN c : norm c = cEN -> c = cEN.
Proof. unfold norm. destruct (c =? cAL); [discriminate|]. destruct (_ || _); [discriminate|]. auto. Qed.
Lemma norm_AN c : norm c = cAN -> c = cAN.
Proof. unfold norm. destruct (c =? cAL); [discriminate|]. destruct (_ || _); [discriminate|]. auto. Qed.
Lemma norm_class c : is_class c -> is_class (norm c).
Proof. unfold norm. destruct (c =? cAL); [split; reflexivity || discriminate|]. destruct (_ || _); [split; reflexivity || discriminate|]. auto. Qed.

Lemma eff_class (PO : props_ok props) r : is_class (eff r).
Proof.
  unfold ScannerProofs.eff. specialize (PO r). destruct (props r) as [c b]. cbn [fst] in PO. unfold test_class.
  assert (X : is_class (if b =? 1 then cBRACKO else if b =? 2 then cBRACKC else if c =? cB then cWS else c)).
  { destruct (b =? 1); [split; reflexivity || discriminate|]. destruct (b =? 2); [split; reflexivity || discriminate|].
    destruct (c =? cB); [split; reflexivity || discriminate|]. unfold is_class, cMAX, cPDI in *. lia. }
  destruct (m_test md); [|exact X]. destruct (upper r); [split; reflexivity || discriminate|].
  destruct (r =? 62); [split; reflexivity || discriminate|]. destruct (r =? 60); [split; reflexivity || discriminate|].
  destruct (r =? 61); [split; reflexivity || discriminate|]. exact X.
Qed.

(* The class of the lookahead. *)
Lemma la_class c cur p : clz cur = norm p -> is_isolate p = false -> (c = cEN -> strong (sctx cur) <> cAL) ->
  applyRulesW1to3 c cur = norm (if c =? cNSM then p else c).
Proof.
  intros C I E. unfold applyRulesW1to3. destruct (c =? cNSM) eqn:EN.
  - rewrite <- C. assert (X : is_isolate (clz cur) = false) by (rewrite C, norm_isolate; auto).
    unfold is_isolate in X. repeat (apply orb_false_iff in X; destruct X as [X ?]).
    rewrite X. rewrite H1. rewrite H. reflexivity.
  - destruct (Z.eqb_spec c cEN) as [->|NE].
    + destruct (Z.eqb_spec (strong (sctx cur)) cAL) as [X|_]; [exfalso; apply E; auto|reflexivity].
    + cbn [andb]. unfold norm. reflexivity.
Qed.

(* Contexts only get their strong class changed. *)
Lemma set_strong_edir d c a : edir (set_strong d c a) = edir d.
Proof. unfold set_strong. destruct (negb _); auto. destruct (_ && _); auto. destruct (_ && _); auto. Qed.
Lemma set_strong_L d a : strong (set_strong d cL a) = cL.
Proof. unfold set_strong. cbn. destruct (_ && _); auto. destruct (_ && _); auto. Qed.
Lemma set_strong_R d a : strong (set_strong d cR a) = cR.
Proof. unfold set_strong. cbn. destruct (_ && _); auto. destruct (_ && _); auto. Qed.

Lemma inherit_spec la cur al : is_isolate (clz la) = false -> is_isolate (clz cur) = false ->
  let x := inheritStrongTypes la cur al in
  clz x = clz la /\ kids x = kids la /\ edir (sctx x) = edir (sctx cur) /\
  (al < 0 -> clz cur <> cAL -> strong (sctx x) = after cur).
Proof.
  intros I J. cbv zeta. unfold inheritStrongTypes.
  unfold is_isolate in I, J. repeat (apply orb_false_iff in I; destruct I as [I ?]). repeat (apply orb_false_iff in J; destruct J as [J ?]).
  rewrite I, H1, J, H4, !orb_false_r. cbn [with_ctx clz kids sctx]. split; auto. split; auto. split.
  - destruct (clz cur =? cL); [|destruct (clz cur =? cR); [|destruct (clz cur =? cAL)]]; rewrite ?set_strong_edir; destruct (0 <=? al); rewrite ?set_strong_edir; reflexivity.
  - intros A N. unfold after. destruct (Z.leb_spec 0 al); [lia|].
    destruct (clz cur =? cL); [apply set_strong_L|]. destruct (clz cur =? cR); [apply set_strong_R|].
    destruct (Z.eqb_spec (clz cur) cAL) as [X|_]; [contradiction|reflexivity].
Qed.

Lemma norm_not_AL c : norm c <> cAL.
Proof. unfold norm. destruct (Z.eqb_spec c cAL); [discriminate|]. destruct (_ || _); [discriminate|]. auto. Qed.

Lemma SC_preserved (PO : props_ok props) : preserved md props upper None SC SR.
Proof.
  intros st cur al r len c st1 out st' cur' al' (s & p & CA & CX & KI & ED & CC & IP & ST & NR & CL) FT RD R1 LN.
  destruct FT as [(F1 & F2 & F3)|(X & _)]; [|congruence]. rewrite F3 in RD.
  rewrite F2 in CA. unfold classes_of in CA. cbn [map fst] in CA. apply calm_cons in CA. set (k := if eff r =? cNSM then p else eff r) in *.
  destruct CA as (C1 & C2 & C3 & C4 & C5). fold (classes_of (para (s_rest st1))) in C5. rewrite <- R1 in C5.
  assert (IK : is_isolate k = false) by (unfold k; destruct (_ =? _); auto).
  assert (LC : applyRulesW1to3 (eff r) cur = norm k).
  { apply la_class; auto. intros E. assert (K1 : k = cEN) by (unfold k; rewrite E; reflexivity).
    specialize (C2 K1). destruct ST as [X|(_ & _ & X)]; [rewrite X in C2; discriminate|exact X]. }
  assert (NC : clz cur <> cNULL -> norm k <> cNULL).
  { intros N. unfold k. destruct (_ =? _); [rewrite <- CC; auto|]. pose proof (norm_class _ (eff_class PO r)) as X. unfold is_class, cMAX in X. unfold cNULL. lia. }
  assert (CK : norm k = cNULL \/ is_class (norm k)).
  { unfold k. destruct (_ =? _); [rewrite <- CC; tauto|]. right. apply norm_class, eff_class, PO. }
  assert (SA : s = cAL -> strong_after s k = cAL) by (intros ->; reflexivity).
  assert (SN : s <> cAL -> strong_after s k = if norm k =? cR then (if k =? cAL then cAL else cR) else if norm k =? cL then cL else s).
  { intros N. unfold strong_after. apply Z.eqb_neq in N. rewrite N. cbn [orb]. unfold norm.
    destruct (Z.eqb_spec k cAL) as [->|NA]; [reflexivity|].
    destruct ((k =? cS) || (k =? cWS) || (k =? cON)) eqn:EN.
    - destruct (Z.eqb_spec k cL) as [->|_]; [discriminate|]. destruct (Z.eqb_spec k cR) as [->|_]; [discriminate|]. reflexivity.
    - destruct (Z.eqb_spec k cR) as [->|_]; [reflexivity|]. reflexivity. }
  destruct RD as (H' & L' & [(-> & -> & EC & NN & B1 & B2 & -> & EX)|(EO & FI & (d & DD & ->) & -> & _ & EX)]).
  - (* the same class again *)
    cbn [la_of clz] in EC. rewrite LC in EC.
    split; [|split; [cbn; auto|intros X; congruence]].
    exists (strong_after s k), k. split; [exact C5|]. split; [congruence|]. cbn [collapse clz kids sctx la_of]. rewrite app_nil_r.
    split; auto. split; auto. split; [congruence|]. split; auto. split; [|split].
    + destruct (Z.eq_dec s cAL) as [X|X]; [left; auto|]. destruct ST as [Y|(A1 & A2 & A3)]; [contradiction|].
      rewrite (SN X), EC. unfold after in A2 |- *. cbn [collapse clz sctx] in *.
      destruct (Z.eqb_spec (clz cur) cR) as [E|E].
      * destruct (k =? cAL); [auto|]. right. split; auto. rewrite E. auto.
      * right. split; auto. destruct (clz cur =? cL); auto.
    + intros X. destruct (NR X) as (N1 & N2 & N3 & N4). destruct (C4 X) as (K1 & K2). split; [|auto].
      rewrite SN by (rewrite N1; discriminate). destruct (Z.eqb_spec (norm k) cR) as [E|_]; [apply norm_R in E; tauto|].
      destruct (norm k =? cL); auto.
    + exact CL.
  - (* a new scrap *)
    assert (IC : is_isolate (clz cur) = false) by (rewrite CC, norm_isolate; auto).
    assert (D : d = sctx cur) by (destruct DD as [X|[_ X]]; [auto|rewrite CX in X; destruct X]). subst d.
    assert (WC : with_ctx cur (sctx cur) = cur) by (destruct cur; reflexivity). rewrite WC.
    set (la := la_of cur (eff r) len) in *. assert (LK : clz la = norm k) by exact LC.
    destruct (inherit_spec la cur al) as (I1 & I2 & I3 & I4); [rewrite LK, norm_isolate; auto|auto|].
    set (x := inheritStrongTypes la cur al) in *. rewrite LK in I1.
    assert (NA : clz cur <> cAL) by (rewrite CC; apply norm_not_AL).
    split; [|split; [rewrite I1; auto|]].
    + exists (strong_after s k), k. split; [exact C5|].
      split; [rewrite EX; [exact CX|change (is_isolate (clz la) = false); rewrite LK, norm_isolate; auto|exact IC]|].
      split; [rewrite I2; reflexivity|]. split; [congruence|]. split; auto. split; auto.
      assert (AE : eff r = cAL -> k = cAL) by (intros E; unfold k; rewrite E; reflexivity).
      split; [|split].
      * destruct (Z.eq_dec s cAL) as [X|X]; [left; auto|]. destruct ST as [Y|(A1 & A2 & A3)]; [contradiction|].
        specialize (I4 A1 NA). destruct (Z.eqb_spec (eff r) cAL) as [E|E]; [left; unfold strong_after; rewrite (AE E), orb_true_r; reflexivity|].
        rewrite (SN X). unfold after at 1. rewrite I1.
        destruct (Z.eqb_spec (norm k) cR) as [F|F].
        -- destruct (k =? cAL); [auto|]. right. split; auto. rewrite F. split; auto. rewrite I4, <- A2. exact X.
        -- right. split; auto. rewrite I4, <- A2. split; auto.
      * intros X. destruct (NR X) as (N1 & N2 & N3 & N4). destruct (C4 X) as (K1 & K2).
        assert (FR : norm k <> cR) by (intros E; apply norm_R in E; tauto).
        split. { rewrite SN by (rewrite N1; discriminate). apply Z.eqb_neq in FR. rewrite FR. destruct (norm k =? cL); auto. }
        split. { rewrite (I4 N3 NA). unfold after. rewrite N2. apply Z.eqb_neq in N4. rewrite N4. destruct (clz cur =? cL); reflexivity. }
        split; [|rewrite I1; exact FR]. destruct (Z.eqb_spec (eff r) cAL) as [E|_]; [elim (K2 (AE E))|auto].
      * rewrite I1. destruct CK as [X|X]; [auto|]. right. split; auto. intros E. apply norm_EN in E. specialize (C2 E).
        destruct ST as [Y|(A1 & A2 & A3)]; [rewrite Y in C2; discriminate|]. rewrite (I4 A1 NA). congruence.
    + intros ON b EB EBX. assert (NN : clz cur <> cNULL). { intros E. rewrite E in EO. cbn in EO. congruence. }
      split.
      * split.
        -- intros E1 E2. rewrite EB, I1 in E2. apply norm_EN in E2. specialize (C2 E2).
           destruct ST as [Y|(A1 & A2 & A3)]; [rewrite Y in C2; discriminate|]. unfold after in A2. rewrite E1 in A2.
           cbn in A2. unfold dcContext. rewrite <- A2, C2. reflexivity.
        -- intros [E1 E2]. rewrite EB, I1 in E2. unfold isbracket, isisolate in FI. rewrite E1 in FI. rewrite <- LK in E2.
           destruct FI as [X|[X|[X|X]]]; try discriminate X. congruence.
      * intros X E. rewrite EB, I1 in E. apply norm_AN in E. rewrite CC, norm_ntr. auto.
Qed.

Lemma SC_exported : (rtl = false -> m_r2l md = false) -> exported SC SQ.
Proof.
  intros LR st cur al (s & p & CA & CX & KI & ED & CC & IP & ST & NR & CL) NN. destruct CL as [X|[CL EN]]; [congruence|]. split.
  - split; auto. split. { change (is_isolate (clz cur) = false). rewrite CC, norm_isolate. auto. } split; auto. split; auto.
    intros E. unfold dcContext. rewrite (EN E). reflexivity.
  - intros X. destruct (NR X) as (N1 & N2 & N3 & N4). split; auto. unfold dcStrong. rewrite N2. split; [discriminate|].
    rewrite ED. unfold outer. rewrite (LR X). reflexivity.
Qed.

Lemma scan_count : forall n st cur al out, lens_ok (s_rest st) -> scan_loop md props upper None n st cur al = Ok out ->
  (length out <= length (s_rest st) + 2)%nat.
Proof.
  induction n as [|n IH]; intros st cur al out L H; [discriminate|]. cbn [scan_loop] in H. unfold scan_step in H.
  destruct (nextRune md props None st (sr cur)) as [inp st1] eqn:EN. pose proof EN as EN0.
  cbn [nextRune] in EN0. destruct (read_rune_spec md props upper _ _ _ EN0 L) as (_ & _ & L1 & _ & _ & F).
  destruct inp as [[[r len] c]|].
  - destruct F as (F1 & _ & _). rewrite F1. cbn [length].
    assert (RS : forall st2 s, handleIsolatingRunSwitch st1 s = Some st2 -> s_rest st2 = s_rest st1).
    { intros st2 s. unfold handleIsolatingRunSwitch. destruct (clz s =? cPDI).
      - destruct (s_stack st1); [intros X; injection X as <-; auto|]. destruct (nth_error (s_hs st1) (s_bd st1)); [|discriminate]. cbn [obind].
        destruct (match removelast _ with [] => _ | _ => _ end); [|discriminate]. intros X. injection X as <-. reflexivity.
      - destruct (irs_find _ _); [|discriminate]. cbn [obind]. destruct (last_irs _ _ _) as [i|]; [|discriminate]. cbn [obind].
        destruct (nth_error _ _); [|discriminate]. intros X. injection X as <-. reflexivity. }
    destruct (finished _ _).
    + destruct (if negb (clz cur =? cNULL) && isisolate cur then _ else _) as [st2|] eqn:E2; [|discriminate]. cbn [obind] in H.
      assert (R2 : s_rest st2 = s_rest st1) by (destruct (_ && _); [eauto|injection E2 as <-; auto]).
      set (pr := if isisolate _ && _ then _ else _) in H.
      assert (R3 : s_rest (fst pr) = s_rest st1).
      { unfold pr. match goal with |- s_rest (fst (if ?b then _ else _)) = _ => destruct b end; [exact R2|].
        destruct (s_ctx st2); [exact R2|]. destruct (clz cur =? cPDI); exact R2. }
      destruct pr as [st3 cur3]. cbn [fst] in R3. unfold prepareRuleBD16 in H.
      set (x := inheritStrongTypes _ _ _) in *.
      assert (exists st4, s_rest st4 = s_rest st1 /\ (let* more := scan_loop md props upper None n st4 x (if test_class md upper r c =? cAL then sl x else al) in
        Ok ((if clz cur =? cNULL then [] else [cur]) ++ more)) = Ok out) as (st4 & R4 & H4).
      { destruct (negb (isbracket x)); [exists st3; split; auto|].
        destruct (nth_error (s_hs st3) (s_bd st3)); [|discriminate]. cbn [obind lift rbind] in H.
        match type of H with context [scan_loop _ _ _ _ _ ?s4 _ _] => exists s4 end. split; auto. }
      destruct (scan_loop md props upper None n st4 _ _) as [more| |] eqn:EM; try discriminate. cbn [rbind] in H4.
      injection H4 as <-. apply IH in EM; [|rewrite R4; auto]. rewrite R4 in EM. rewrite app_length. destruct (clz cur =? cNULL); cbn [length]; lia.
    + cbn [lift rbind] in H. destruct (scan_loop md props upper None n _ _ _) as [more| |] eqn:EM; try discriminate. cbn [rbind app] in H.
      injection H as <-. apply IH in EM; auto. lia.
  - destruct (if isisolate cur then _ else _); [|discriminate]. cbn [obind lift rbind] in H. injection H as <-. cbn. lia.
Qed.

Lemma linked_impl (P Q : scrap -> scrap -> Prop) : (forall a b, P a b -> Q a b) -> forall l, linked P l -> linked Q l.
Proof. intros H. induction l as [|a [|b l] IH]; auto. intros [A B]. split; auto. Qed.

(* What the scanner sends. *)
Theorem scan_calm input r len rest : props_ok props -> lens_ok input -> total (para input) < 2 ^ 32 ->
  para input = (r, len) :: rest -> eff r <> cNSM -> (rtl = false -> m_r2l md = false) ->
  calm rtl cL cNULL (classes_of (para input)) = true ->
  exists ss, Scan md props upper None input = Ok (ss ++ [stopper]) /\ G1 md (total (para input)) rtl ss /\
    Forall (fun s => clz s <> cNULL) ss /\ (length ss <= S (length input))%nat.
Proof.
  intros PO L B EP EF LR CA.
  destruct (scan_from_start md props upper None SC SQ SR input r len rest (SC_preserved PO) (SC_exported LR) PO) as (ss & E & T & F & LK); auto.
  { exists cL, cNULL. split; [exact CA|]. split; [reflexivity|]. unfold initialOuterScrap, outer, after.
    destruct (m_r2l md) eqn:EM; cbn; (split; [auto|]; split; [auto|]; split; [auto|]; split; [auto|]).
    - split; [right; split; [lia|split; [auto|discriminate]]|]. split; [|auto]. intros X. discriminate (LR X).
    - split; [right; split; [lia|split; [auto|discriminate]]|]. split; [|auto]. intros X. split; auto. split; auto. split; [lia|discriminate]. }
  exists ss. split; [exact E|]. pose proof E as E0. unfold Scan in E0. apply scan_count in E0; [|exact L]. rewrite app_length in E0. cbn [newScanner s_rest length] in E0.
  split; [|split; [|lia]].
  - split. { eapply Forall_impl; [|exact F]. intros s (_ & X & _). exact X. }
    split. { eapply linked_impl; [|exact LK]. intros a b (X & _). exact X. }
    split; [exact T|]. unfold numbers. destruct rtl eqn:ER.
    + eapply linked_impl; [|exact LK]. intros a b (_ & X). exact (X ER).
    + eapply Forall_impl; [|exact F]. intros s (_ & _ & X). exact (X ER).
  - eapply Forall_impl; [|exact F]. intros s (X & _). exact X.
Qed.

Theorem resolve_text input r len rest n : props_ok props -> lens_ok input -> total (para input) < 2 ^ 32 ->
  para input = (r, len) :: rest -> eff r <> cNSM -> (rtl = false -> m_r2l md = false) ->
  calm rtl cL cNULL (classes_of (para input)) = true -> (rounds (S (length input)) <= n)%nat ->
  exists lv, ResolveParagraph n md props upper None input = Ok (lv, []) /\ resolved md (total (para input)) lv.
Proof.
  intros PO L B EP EF LR CA FU. unfold ResolveParagraph. rewrite prepared. cbn [rbind].
  destruct (scan_calm input r len rest) as (ss & E & G & NN & LE); auto. rewrite E. cbn [rbind].
  destruct (ScanFinal_ok None input L B) as (st & -> & TM). cbn [rbind].
  apply (resolve_flat md (total (para input)) rtl findBracket changeBracket SI find_ok change_ok ss stopper [] st n); auto.
  - apply tame_SI, TM.
  - assert ((rounds (length ss) <= rounds (S (length input)))%nat); [|lia]. unfold rounds. nia.
Qed.
End Inst.
End Text.
