(* IsolateText.v -- strong classes and bracket pairs in texts with isolates. *)
From Coq Require Import List ZArith Lia Bool Sorted.
From Verif Require Import SplitProofs Base Scrap Brackets Bd16Spec BracketProofs Scanner ScannerProofs ResolverText Resolver ResolverFlat ReorderSpec NestedText ScanContext BracketText SequenceSpec SequenceProofs Isolates.
Import ListNotations.
Open Scope Z_scope.

Section Texts.
Context (md : mode) (props : Z -> Z * Z) (upper : Z -> bool).
Notation eff := (eff md props upper).
Notation para := (para md props).
Notation classes := (classes_of md props upper).

Definition no_AL (l : list (Z * Z)) : Prop := Forall (fun c => c <> cAL) (classes l).

Lemma scan_solid input r len rest : props_ok props -> lens_pos input -> total (para input) < 2 ^ 32 ->
  para input = (r, len) :: rest -> eff r <> cNSM ->
  exists ss, Scan md props upper None input = Ok (ss ++ [stopper]) /\ tiles 0 ss (total (para input)) /\
    Forall (fun s => clz s <> cNULL /\ sl s < sr s) ss.
Proof.
  intros PO L B EP EF.
  set (I := fun (st : scst) (cur : scrap) (_ : Z) => lens_pos (para (s_rest st)) /\ (clz cur = cNULL \/ sl cur < sr cur)).
  set (Q := fun s => sl s < sr s).
  assert (EX : exported I Q).
  { intros st cur al (_ & [X|X]) N; [contradiction|exact X]. }
  assert (PR : preserved md props upper None I (fun _ _ => True)).
  { intros st cur al r0 len0 c st1 out st' cur' al' (A2 & PL) FT RD R1 LN.
    destruct FT as [(F1 & F2 & F3)|(X & _)]; [|congruence]. rewrite F3 in RD. rewrite F2 in A2.
    pose proof (Forall_inv A2) as C1. apply Forall_inv_tail in A2. cbn [snd] in C1.
    assert (SI : lens_pos (para (s_rest st'))) by (rewrite R1; exact A2).
    destruct RD as (_ & _ & [(-> & -> & Y1 & Y2 & _)|(_ & _ & (d & _ & ->) & _)]).
    - split; [|split; [auto|congruence]]. split; [exact SI|]. right. cbn [collapse la_of sl sr]. destruct PL as [X|X]; [contradiction|]. lia.
    - split; [|split; [|auto]].
      + split; [exact SI|]. right. cbn. lia.
      + intros N. change (applyRulesW1to3 (eff r0) cur <> cNULL). apply apply_null; auto. apply eff_null; auto. }
  destruct (scan_from_start md props upper None I Q (fun _ _ => True) input r len rest PR EX PO) as (ss & E & T & F & _); auto.
  { split; [apply para_pos; exact L|]. destruct (initial_context md) as (_ & X & _). auto. }
  { apply pos_ok. exact L. }
  exists ss. auto.
Qed.

Lemma outer_lr : outer md = cL \/ outer md = cR.
Proof. unfold outer. destruct (m_r2l md); auto. Qed.

(* What every context knows. *)
Lemma scan_known input r len rest ss : props_ok props -> lens_pos input -> total (para input) < 2 ^ 32 ->
  para input = (r, len) :: rest -> eff r <> cNSM -> no_AL (para input) ->
  Scan md props upper None input = Ok (ss ++ [stopper]) -> roomy false (map clz ss) = true ->
  tiles 0 ss (total (para input)) /\ Forall (fun s => clz s <> cNULL /\ sl s < sr s) ss /\
  forall A o s C, seats [] ss = A ++ (o, s) :: C -> isisolate s = false -> known (outer md) A o (sl s) (sctx s).
Proof.
  intros PO L B EP EF NA E RO. destruct (scan_solid input r len rest PO L B EP EF) as (ss' & E' & T & F).
  assert (ss' = ss) as -> by (rewrite E in E'; injection E' as E'; apply app_inj_tail in E'; symmetry; tauto). clear E'.
  split; [exact T|]. split; [exact F|].
  destruct (contexts md props upper false input r len rest _ PO (pos_ok _ L) ltac:(intros _; exact NA) EP EF E) as (s0 & t & EQ & CH).
  apply app_inj_tail in EQ. destruct EQ as [EQ _]. rewrite <- EQ in CH. destruct (initial_context md) as (I1 & I2 & I3).
  set (a := initialOuterScrap md false) in *.
  assert (I4 : sr a = 0) by (unfold a, initialOuterScrap; destruct (m_r2l md); reflexivity).
  assert (RA : room a = false) by (unfold room; rewrite I2; reflexivity).
  assert (BK : back [] a = (sctx a, [])) by (unfold back; rewrite I2; reflexivity).
  assert (HD : handed (sctx a) a = sctx a) by (unfold handed; rewrite I2; reflexivity).
  assert (ST : state (outer md) [] [] [] a).
  { constructor; rewrite ?BK; cbn [fst snd]; rewrite ?HD, ?I4.
    - unfold known. cbv zeta. cbn [direction beginning fellows filter map seat home hd last_strong last_pos opps fold_left snd]. rewrite I1. unfold knows. cbn [edir strong mpos odist]. kn. auto.
    - exact Logic.I.
    - exact Logic.I.
    - constructor.
    - rewrite I1. reflexivity.
    - rewrite I2. discriminate. }
  intros A o s C EA IS.
  apply (walk (outer md) outer_lr (total (para input)) B ss [] [] [] a ST CH ltac:(rewrite I4; exact T)
    ltac:(eapply Forall_impl; [|exact F]; cbn; tauto) ltac:(lia) ltac:(rewrite RA; discriminate) ltac:(eapply Forall_impl; [|exact F]; cbn; tauto) ltac:(rewrite RA; exact RO) A o s C EA IS).
Qed.

(* The strong class of every context. *)
Theorem isolate_strong input r len rest ss : props_ok props -> lens_pos input -> total (para input) < 2 ^ 32 ->
  para input = (r, len) :: rest -> eff r <> cNSM -> no_AL (para input) ->
  Scan md props upper None input = Ok (ss ++ [stopper]) -> roomy false (map clz ss) = true ->
  forall A o s C, seats [] ss = A ++ (o, s) :: C -> isisolate s = false ->
    edir (sctx s) = direction (outer md) o /\ dcStrong (sctx s) = last_strong (beginning o) (map clz (fellows (seat o) A)).
Proof.
  intros PO L B EP EF NA E RO A o s C EA IS. destruct (scan_known input r len rest ss PO L B EP EF NA E RO) as (_ & _ & K).
  destruct (K A o s C EA IS) as (K1 & K2 & _). split; [exact K1|]. unfold dcStrong. rewrite K2.
  assert (X : beginning o = cL \/ beginning o = cR) by (unfold beginning; destruct o; auto; destruct (_ =? _); auto).
  destruct (last_strong_lr (map clz (fellows (seat o) A)) _ X) as [-> | ->]; reflexivity.
Qed.

Lemma in_fellows z l x : In x (fellows z l) -> In x (map snd l).
Proof. unfold fellows. rewrite !in_map_iff. intros (y & <- & I). apply filter_In in I. exists y. tauto. Qed.

Lemma solid_unique : forall l lo hi, tiles lo l hi -> Forall (fun s => sl s < sr s) l -> forall a b, In a l -> In b l -> sl a = sl b -> a = b.
Proof.
  intros l lo hi T F a b IA IB S. apply in_split in IA as (u & v & EA). apply in_split in IB as (u' & v' & EB). destruct (strict_apart l lo hi T F u a v u' b v' EA EB S) as (_ & X & _). exact X.
Qed.

(* The pair of brackets o, c of one sequence: the class that the code computes is that of N0. *)
Theorem isolate_n0 input r len rest ss : props_ok props -> lens_pos input -> total (para input) < 65536 ->
  para input = (r, len) :: rest -> eff r <> cNSM -> no_AL (para input) ->
  Scan md props upper None input = Ok (ss ++ [stopper]) -> roomy false (map clz ss) = true ->
  forall A op o W op' c V, seats [] ss = A ++ (op, o) :: W ++ (op', c) :: V -> seat op' = seat op -> isbracket o = true -> isbracket c = true ->
    let e := direction (outer md) op in
    let s := if sl o =? 0 then e else last_strong (beginning op) (map clz (fellows (seat op) A)) in
    let inside := map clz (fellows (seat op) W) in
    n0_code o c = n0 e s inside \/
    n0_code o c = e /\ s = e /\ existsb (Z.eqb e) inside = false /\ existsb (Z.eqb (opposite e)) inside = false.
Proof.
  intros PO L B EP EF NA E RO A op o W op' c V EA SE BO BC. cbv zeta.
  destruct (scan_known input r len rest ss PO L ltac:(lia) EP EF NA E RO) as (T & F & K).
  assert (FS : Forall (fun s => sl s < sr s) ss) by (eapply Forall_impl; [|exact F]; cbn; tauto).
  assert (NI : forall s, isbracket s = true -> isisolate s = false) by (intros s; apply bracket_not_iso).
  pose proof (K A op o _ EA (NI o BO)) as KO.
  assert (EC : seats [] ss = (A ++ (op, o) :: W) ++ (op', c) :: V) by (rewrite <- app_assoc; exact EA).
  pose proof (K _ op' c _ EC (NI c BC)) as KC.
  assert (ES : ss = map snd A ++ o :: map snd W ++ c :: map snd V).
  { rewrite <- (seats_snd ss []), EA, map_app. cbn [map snd]. rewrite map_app. reflexivity. }
  (* the initiator *)
  assert (ND : direction (outer md) op' = direction (outer md) op /\ beginning op' = beginning op).
  { assert (HI : forall q x, In (q, x) (seats [] ss) -> forall b t, q = b :: t -> In b ss /\ 0 < sl b).
    { intros q x I b t ->. destruct (seats_open ss [] (b :: t, x) I b ltac:(left; reflexivity)) as [[]|[IB IN]]. split; [exact IB|].
      clear -T FS IB IN RO. destruct ss as [|s0 t0]; [destruct IB|]. destruct IB as [->|IB].
      - cbn [map roomy] in RO. rewrite IN in RO. discriminate RO.
      - destruct T as (T1 & T2 & T3). apply Forall_inv in FS. cbn beta in FS. pose proof (tiles_bounds _ _ _ T3) as TB. rewrite Forall_forall in TB. specialize (TB b IB). cbn beta in TB. lia. }
    assert (I1 : In (op, o) (seats [] ss)) by (rewrite EA; apply in_or_app; right; left; reflexivity).
    assert (I2 : In (op', c) (seats [] ss)) by (rewrite EC; apply in_or_app; right; left; reflexivity).
    destruct op as [|b1 t1], op' as [|b2 t2].
    - auto.
    - destruct (HI _ _ I2 b2 t2 eq_refl) as [_ P]. cbn [seat map home hd] in SE. unfold seat in SE. cbn [map home hd] in SE. lia.
    - destruct (HI _ _ I1 b1 t1 eq_refl) as [_ P]. cbn [seat map home hd] in SE. unfold seat in SE. cbn [map home hd] in SE. lia.
    - destruct (HI _ _ I1 b1 t1 eq_refl) as [J1 _], (HI _ _ I2 b2 t2 eq_refl) as [J2 _]. assert (b2 = b1) as -> by (apply (solid_unique ss _ _ T FS); auto). auto. }
  destruct ND as [ND1 ND2].
  unfold known in KO, KC. cbv zeta in KO, KC. rewrite ND1, ND2, SE in KC.
  set (e := direction (outer md) op) in *. set (z := seat op) in *.
  rewrite fellows_app in KC. change ((op, o) :: W) with ([(op, o)] ++ W) in KC. rewrite fellows_app, fellows_one in KC. fold z in KC. rewrite Z.eqb_refl in KC. cbn [app] in KC.
  rewrite map_app, last_strong_app, last_pos_app, opps_app in KC.
  set (M := fellows z A) in *. set (w := fellows z W) in *. set (s := last_strong (beginning op) (map clz M)) in *.
  rewrite (surjective_pairing (opps e (z, None) M)) in KC. rewrite opps_fst in KC. cbn [fst] in KC.
  set (m := last_pos e z M) in *. set (q := snd (opps e (z, None) M)) in *.
  assert (EE : e = cL \/ e = cR) by apply direction_dir, outer_lr.
  rewrite ES in T, FS. apply tiles_app in T. destruct T as (mid & TA & TO). cbn [tiles] in TO. destruct TO as (<- & TO1 & TO2).
  assert (PW : Forall (fun x => sl o <= sl x) w).
  { apply Forall_forall. intros x I. apply in_fellows in I. pose proof (tiles_bounds _ _ _ TO2) as TB. rewrite Forall_forall in TB.
    specialize (TB x ltac:(apply in_or_app; left; exact I)). cbn beta in TB. lia. }
  assert (CB : sl c < 65536).
  { pose proof (tiles_bounds _ _ _ TO2) as TB. rewrite Forall_forall in TB. specialize (TB c ltac:(apply in_or_app; right; left; reflexivity)). cbn beta in TB. lia. }
  assert (P0 : 0 <= sl o) by (destruct KO as (_ & _ & _ & ? & _); lia).
  destruct (Z.eqb_spec (sl o) 0) as [Z0|Z0].
  - (* the first character *)
    assert (MC : 0 <= mpos (sctx c)) by (destruct KC as (_ & _ & X & ? & _); rewrite X; lia).
    assert (ED : se o = e) by (destruct KO as (X & _); exact X).
    unfold n0_code, has_match_after. rewrite Z0, ED. destruct (Z.leb_spec 0 (mpos (sctx c))); [|lia].
    unfold n0. destruct (existsb (Z.eqb e) (map clz w)); [auto|]. destruct (existsb _ _); [|right; auto].
    left. destruct EE as [-> | ->]; reflexivity.
  - assert (MO : m < sl o) by (destruct KO as (_ & _ & _ & ? & X & _); destruct (Z.eq_dec m 0); lia).
    apply (n0_known e s m q o w c EE); auto.
    apply last_strong_lr. unfold beginning. destruct op; [auto|]. destruct (_ =? _); auto.
Qed.

(* ---- the handlers ---- *)
Definition ttag (t : list (Z * nat) * (Z * scrap)) : list Z * scrap := (map fst (fst t), snd (snd t)).
Definition stag (x : list scrap * scrap) : list Z * scrap := (map sl (fst x), snd x).
Lemma tags_seats : forall l es a open, map snd es = filter solo l -> map fst (a_open a) = map sl open ->
  map ttag (a_tags (fold_left a_step es a)) = map ttag (a_tags a) ++ map stag (filter (fun x => isbracket (snd x)) (seats open l)).
Proof.
  induction l as [|s l IH]; intros es a open M O.
  - cbn [filter] in M. destruct es; [|discriminate]. cbn. rewrite app_nil_r. reflexivity.
  - cbn [filter] in M. cbn [seats]. destruct (solo s) eqn:ES.
    + destruct es as [|[r x] es]; [discriminate|]. cbn [map snd] in M. injection M as M1 M2. subst x. cbn [fold_left].
      destruct (clz s =? cPDI) eqn:EP.
      * assert (NB : isbracket s = false) by (apply Z.eqb_eq in EP; unfold isbracket; rewrite EP; reflexivity).
        cbn [filter snd]. rewrite NB. rewrite (IH es (a_step a (r, s)) (tl open) M2); unfold a_step; cbn [snd]; rewrite EP; cbn [a_tags a_open]; [reflexivity|].
        destruct (a_open a), open; cbn in O |- *; try discriminate; [reflexivity|]. injection O as _ O. exact O.
      * destruct (initiator (clz s)) eqn:EI.
        -- assert (IS : isisolate s = true) by (unfold isisolate; unfold initiator in EI; rewrite EI; reflexivity).
           assert (NB : isbracket s = false) by (destruct (isbracket s) eqn:X; [rewrite (bracket_not_iso _ X) in IS; discriminate|reflexivity]).
           cbn [filter snd]. rewrite NB. rewrite (IH es (a_step a (r, s)) (s :: open) M2); unfold a_step; cbn [snd]; rewrite EP, IS; cbn [a_tags a_open map fst]; [reflexivity|]. rewrite O. reflexivity.
        -- assert (IS : isisolate s = false) by (unfold isisolate; unfold initiator in EI; rewrite EI, EP; reflexivity).
           assert (NB : isbracket s = true) by (unfold solo in ES; rewrite IS, orb_false_r in ES; exact ES).
           cbn [filter snd]. rewrite NB. rewrite (IH es (a_step a (r, s)) open M2); unfold a_step; cbn [snd]; rewrite EP, IS; cbn [a_tags a_open]; [|exact O].
           rewrite map_app, <- app_assoc. cbn [map app]. unfold ttag at 2, stag at 2. cbn [fst snd]. rewrite O. reflexivity.
    + assert (NB : isbracket s = false /\ isisolate s = false) by (apply orb_false_iff; exact ES). destruct NB as [NB IS].
      assert (EP : (clz s =? cPDI) = false) by (unfold isisolate in IS; apply orb_false_iff in IS; tauto).
      assert (EI : initiator (clz s) = false) by (unfold isisolate in IS; apply orb_false_iff in IS; tauto).
      rewrite EP, EI. cbn [filter snd]. rewrite NB. apply IH; assumption.
Qed.

(* The two brackets of a pair are in one sequence, and their handler is found for both. *)
Theorem text_partner input r len rest ss st : props_ok props -> lens_pos input -> total (para input) < 2 ^ 32 ->
  para input = (r, len) :: rest -> eff r <> cNSM ->
  matched 0 (marks_of md props upper cNULL 0 (para input)) = true ->
  Scan md props upper None input = Ok (ss ++ [stopper]) -> ScanFinal md props upper None input = Ok st ->
  forall o c, In o ss -> clz o = cBRACKO -> fst (findBracket st o) = Some c ->
  exists i h es pg, findBD16ForPos st (sl o) = Some i /\ findBD16ForPos st (sl c) = Some i /\ nth_error (s_hs st) i = Some h /\
    h_bd h = bd16_run new_handler es /\ ascending 0 (map view es) /\ find_pairing (pairs (h_bd h)) o = Some pg /\ pg_open pg = o /\ pg_close pg = c /\ clz c = cBRACKC /\
    exists A op W op' V, seats [] ss = A ++ (op, o) :: W ++ (op', c) :: V /\ seat op' = seat op.
Proof.
  intros PO L B EP EF M H1 H2 o c IO CO FB. destruct (scan_solid input r len rest PO L B EP EF) as (ss' & E' & T & F).
  assert (ss' = ss) as -> by (rewrite H1 in E'; injection E' as E'; apply app_inj_tail in E'; symmetry; tauto). clear E'.
  assert (FS : Forall (fun s => sl s < sr s) ss) by (eapply Forall_impl; [|exact F]; cbn; tauto). clear F.
  assert (IC : clz (initialOuterScrap md false) = cNULL /\ sl (initialOuterScrap md false) = 0 /\ sr (initialOuterScrap md false) = 0) by (unfold initialOuterScrap; destruct (m_r2l md); auto).
  destruct IC as (I1 & I2 & I3).
  assert (NI : isisolate (initialOuterScrap md false) = false) by (unfold isisolate; rewrite I1; reflexivity).
  destruct (seq_loop md props upper _ 0 (mkabs 0 [] [] 0) 0 (newScanner input) (initialOuterScrap md false) (-1) cNULL _ _ (Inv_start input) L
    ltac:(rewrite I1; reflexivity) ltac:(lia) ltac:(lia) ltac:(congruence) ltac:(rewrite I3; exact B) ltac:(unfold pend; rewrite NI, I3; exact M) H1 H2) as (es & q & X1 & X2 & J).
  unfold a_pend in J. rewrite NI in J.
  assert (S0 : solo (initialOuterScrap md false) = false) by (rewrite solo_soloc, I1; reflexivity). rewrite S0 in X1. cbn [app] in X1.
  rewrite filter_app in X1. cbn [filter] in X1. change (solo stopper) with false in X1. rewrite app_nil_r in X1.
  pose proof (tags_seats ss es (mkabs 0 [] [] 0) [] (eq_sym X1) eq_refl) as TS. cbn [a_tags map app] in TS.
  assert (SO : Forall (fun e => solo (snd e) = true) es).
  { apply Forall_forall. intros e I. apply (in_map snd) in I. rewrite <- X1 in I. apply filter_In in I. tauto. }
  destruct (tags_homes es (mkabs 0 [] [] 0) SO) as (_ & T2 & _). cbn [a_tags map app] in T2.
  set (a := fold_left a_step es (mkabs 0 [] [] 0)) in *.
  (* the tag of a bracket of the text *)
  assert (TG : forall s, In s ss -> isbracket s = true -> exists t, In t (a_tags a) /\ snd (snd t) = s).
  { intros s I BR. assert (X : In s (map snd (map ttag (a_tags a)))).
    { rewrite TS, map_map. cbn [stag snd]. rewrite <- (seats_snd ss []) in I. apply in_map_iff in I as (x & <- & I). apply in_map_iff. exists x. split; [reflexivity|]. apply filter_In. auto. }
    rewrite map_map in X. apply in_map_iff in X as (t & EX & IT). exists t. auto. }
  assert (UT : forall t t', In t (a_tags a) -> In t' (a_tags a) -> snd (snd t) = snd (snd t') -> fst t = fst t').
  { assert (ND : NoDup (map (fun t => snd (snd t)) (a_tags a))).
    { rewrite <- (map_map snd snd), T2. assert (XX : map snd (filter (fun e => isbracket (snd e)) es) = filter isbracket ss).
      { clear -X1 SO. assert (Y : filter isbracket (filter solo ss) = filter isbracket ss).
        { clear. induction ss as [|s l IH]; [reflexivity|]. cbn [filter]. destruct (solo s) eqn:ES; cbn [filter]; [rewrite IH; reflexivity|]. assert (NB : isbracket s = false) by (apply orb_false_iff in ES; tauto). rewrite NB. exact IH. }
        rewrite <- Y, X1. clear. induction es as [|e es IH]; [reflexivity|]. cbn [filter map]. destruct (isbracket (snd e)); cbn [map]; rewrite IH; reflexivity. }
      rewrite XX. apply NoDup_filter. clear -T FS. revert T. generalize 0. induction ss as [|s l IH]; intros lo T; [constructor|]. destruct T as (T1 & T2 & T3). constructor.
      - intros I. apply Forall_inv in FS. pose proof (tiles_bounds _ _ _ T3) as TB. rewrite Forall_forall in TB. specialize (TB s I). cbn beta in *. lia.
      - apply (IH (Forall_inv_tail FS) _ T3). }
    intros t t' I I' EQ. clear -ND I I' EQ. induction (a_tags a) as [|x l IH]; [destruct I|]. cbn [map] in ND. apply NoDup_cons_iff in ND. destruct ND as [N1 N2].
    destruct I as [<-|I], I' as [<-|I'].
    - reflexivity.
    - exfalso. apply N1. rewrite EQ. apply (in_map (fun t => snd (snd t))) in I'. exact I'.
    - exfalso. apply N1. rewrite <- EQ. apply (in_map (fun t => snd (snd t))) in I. exact I.
    - apply IH; assumption. }
  assert (BO : isbracket o = true) by (unfold isbracket; rewrite CO; reflexivity).
  destruct (TG o IO BO) as (t & IT & ET).
  pose proof (inv_find q a st t J IT) as FD. rewrite ET in FD. set (ot := fst t) in *.
  set (ot' := if (owner ot <? a_n a)%nat then ot else tl ot).
  assert (A1 : around a ot) by (exists t, []; auto).
  assert (A2 : around a (tl ot)) by (exists t, (firstn 1 ot); split; [exact IT|]; unfold ot; destruct (fst t); reflexivity).
  assert (A' : around a ot') by (unfold ot'; destruct (_ <? _)%nat; assumption).
  destruct (handler_at q a st J (owner ot') (around_le _ _ _ J _ A')) as (h & EH & EB).
  replace (if (owner ot <? a_n a)%nat then owner ot else owner (tl ot)) with (owner ot') in FD by (unfold ot'; destruct (_ <? _)%nat; reflexivity).
  unfold findBracket in FB. rewrite FD in FB. cbn [obind fst] in FB. rewrite EH in FB. cbn [obind] in FB.
  destruct (find_pairing (pairs (h_bd h)) o) as [pg|] eqn:EPG; [|discriminate]. cbn [obind] in FB. rewrite CO, Z.eqb_refl in FB. injection FB as FB.
  destruct (find_spec o _ _ EPG) as [IP SP]. rewrite CO, Z.eqb_refl in SP.
  set (ew := owned (owner ot') (a_tags a)) in *.
  destruct (given_new ew) as [_ GV]. rewrite Forall_forall in GV. rewrite EB in IP. pose proof (GV pg IP) as (x & r1 & y & r2 & z & EW). rewrite FB in EW.
  assert (OW : forall e, In e ew -> exists t', In t' (a_tags a) /\ snd t' = e /\ owner (fst t') = owner ot').
  { intros e I. unfold ew, owned in I. apply in_map_iff in I as (t' & <- & I). apply filter_In in I. destruct I as [I Y]. apply Nat.eqb_eq in Y. exists t'. auto. }
  assert (IW : forall e, In e ew -> In (snd e) ss /\ isbracket (snd e) = true).
  { intros e I. destruct (OW e I) as (t' & It & Et & _). apply (in_map snd) in It. rewrite T2, Et in It. apply filter_In in It. destruct It as [It Ib]. split; [|exact Ib].
    apply (in_map snd) in It. rewrite <- X1 in It. apply filter_In in It. tauto. }
  assert (GO : pg_open pg = o).
  { apply (solid_unique ss _ _ T FS); [apply (IW (r1, pg_open pg)); rewrite EW; apply in_or_app; right; left; reflexivity|exact IO|exact SP]. }
  rewrite GO in EW.
  destruct (OW (r1, o) ltac:(rewrite EW; apply in_or_app; right; left; reflexivity)) as (t1 & It1 & Et1 & Ow1).
  destruct (OW (r2, c) ltac:(rewrite EW; apply in_or_app; right; right; apply in_or_app; right; left; reflexivity)) as (t2 & It2 & Et2 & Ow2).
  assert (T1O : fst t1 = ot) by (apply UT; auto; rewrite Et1, ET; reflexivity). rewrite T1O in Ow1.
  assert (ICS : In c ss /\ isbracket c = true) by (apply (IW (r2, c)); rewrite EW; apply in_or_app; right; right; apply in_or_app; right; left; reflexivity). destruct ICS as [ICS BC].
  (* the handler for the closing bracket *)
  pose proof (inv_find q a st t2 J It2) as FC. rewrite Et2 in FC. cbn [snd] in FC.
  assert (FC' : findBD16ForPos st (sl c) = Some (owner ot')).
  { rewrite FC. f_equal. rewrite Ow2, <- Ow1. destruct (Nat.ltb_spec (owner ot) (a_n a)) as [LT|GE]; [reflexivity|].
    assert (OT : ot' = tl ot) by (unfold ot'; destruct (Nat.ltb_spec (owner ot) (a_n a)); [lia|reflexivity]). rewrite OT in Ow1.
    pose proof (I_tags _ _ _ J) as TT. rewrite Forall_forall in TT. destruct (TT _ IT) as (_ & D & _). fold ot in D.
    assert (Z0 : owner ot = 0%nat).
    { unfold owner in Ow1 |- *. destruct ot as [|w1 [|w2 ot2]]; cbn [map hd tl app] in *; [reflexivity|exact Ow1|]. apply StronglySorted_inv in D. destruct D as [_ D]. apply Forall_inv in D. lia. }
    assert (A3 : around a (tl (fst t2))) by (exists t2, (firstn 1 (fst t2)); split; [exact It2|]; destruct (fst t2); reflexivity).
    pose proof (around_le _ _ _ J _ A3). lia. }
  exists (owner ot'), h, ew, pg. split; [exact FD|]. split; [exact FC'|]. split; [exact EH|]. split; [exact EB|].
  assert (AS : ascending 0 (map view ew)).
  { unfold ew. rewrite (owned_sequence q a st J _ A'). apply sequence_asc. destruct (tags_homes es (mkabs 0 [] [] 0) SO) as (T1 & _). cbn [a_tags map app a_open] in T1. fold a in T1. rewrite T1, X2. rewrite I3. apply homes_asc, marks_asc, para_pos, L. }
  split; [exact AS|]. split; [exact EPG|]. split; [exact GO|]. split; [exact FB|]. split.
  { rewrite <- FB. pose proof (closes_class ew new_handler ltac:(constructor)) as CC. rewrite Forall_forall in CC. apply (CC pg IP). }
  (* their seats *)
  assert (LT : sl o < sl c).
  { clear -EW AS. rewrite EW in AS. rewrite map_app in AS. cbn [map] in AS. rewrite map_app in AS. cbn [map] in AS. destruct (asc_nodup _ _ AS) as [ND _].
    assert (G : forall l lo, ascending lo (l ++ view (r1, o) :: map view y ++ view (r2, c) :: map view z) -> sl o < sl c).
    { induction l as [|[k p] l IH]; intros lo AA; cbn [app ascending] in AA.
      - change (view (r1, o)) with (r1, sl o) in AA. destruct AA as [_ AA]. apply asc_nodup in AA. destruct AA as [_ AA]. apply Forall_app in AA. destruct AA as [_ AA]. apply Forall_inv in AA. change (snd (view (r2, c))) with (sl c) in AA. lia.
      - destruct AA as [_ AA]. apply (IH _ AA). }
    apply (G _ _ AS). }
  assert (SE : forall t' s, In t' (a_tags a) -> snd (snd t') = s -> In s ss -> exists op, In (op, s) (seats [] ss) /\ map sl op = map fst (fst t')).
  { intros t' s I ES IS. apply (in_map ttag) in I. rewrite TS in I. apply in_map_iff in I as ([op s'] & EQ & I). apply filter_In in I. destruct I as [I _]. unfold stag, ttag in EQ. cbn [fst snd] in EQ. injection EQ as Q1 Q2. exists op. split; [|exact Q1]. rewrite <- ES, <- Q2. exact I. }
  destruct (SE t1 o It1 ltac:(rewrite Et1; reflexivity) IO) as (op & P1 & P2). destruct (SE t2 c It2 ltac:(rewrite Et2; reflexivity) ICS) as (op' & P3 & P4).
  apply in_split in P1 as (A & R & EA). rewrite EA in P3. apply in_app_or in P3.
  assert (ESS : ss = map snd A ++ o :: map snd R) by (rewrite <- (seats_snd ss []), EA, map_app; reflexivity).
  rewrite ESS in T. apply tiles_app in T. destruct T as (mid & TA & TO). destruct TO as (TO0 & TO1 & TO2).
  destruct P3 as [P3|[P3|P3]].
  - exfalso. apply (in_map snd) in P3. pose proof (tiles_bounds _ _ _ TA) as TB. rewrite Forall_forall in TB. specialize (TB c P3). cbn beta in TB. lia.
  - exfalso. injection P3 as _ P3. rewrite P3 in LT. lia.
  - apply in_split in P3 as (W & V & ER). exists A, op, W, op', V. rewrite EA, ER. split; [reflexivity|].
    unfold seat. rewrite P2, P4. apply Z.eqb_eq. rewrite (around_home q a st J).
    + rewrite Ow2, T1O, Ow1. apply Nat.eqb_refl.
    + exists t2, []. auto.
    + exists t1, []. auto.
Qed.

(* ---- what stays in the store when opening brackets are resolved ---- *)
Definition same_pairs (h h' : hrec) : Prop :=
  h_first h' = h_first h /\ h_last h' = h_last h /\ h_next h' = h_next h /\
  map pair_core (pairs (h_bd h')) = map pair_core (pairs (h_bd h)) /\ map (fun p => sl (pg_close p)) (pairs (h_bd h')) = map (fun p => sl (pg_close p)) (pairs (h_bd h)).
Definition kept (st st' : scst) : Prop := s_irs st' = s_irs st /\ Forall2 same_pairs (s_hs st) (s_hs st').
Lemma same_refl h : same_pairs h h. Proof. repeat split. Qed.
Lemma same_trans a b c : same_pairs a b -> same_pairs b c -> same_pairs a c.
Proof. intros (A1 & A2 & A3 & A4 & A5) (B1 & B2 & B3 & B4 & B5). repeat split; congruence. Qed.
Lemma forall2_refl {A} (R : A -> A -> Prop) : (forall a, R a a) -> forall l, Forall2 R l l.
Proof. intros H. induction l; constructor; auto. Qed.
Lemma forall2_trans {A} (R : A -> A -> Prop) : (forall a b c, R a b -> R b c -> R a c) -> forall l m, Forall2 R l m -> forall n, Forall2 R m n -> Forall2 R l n.
Proof. intros H. induction 1 as [|a b l m HA HB IH]; intros n HN; inversion HN; subst; constructor; eauto. Qed.
Lemma forall2_nset {A} (R : A -> A -> Prop) (H : forall a, R a a) : forall l i x y, nth_error l i = Some x -> R x y -> Forall2 R l (nset l i y).
Proof.
  induction l as [|a l IH]; intros i x y E X; [destruct i; discriminate|]. destruct i as [|i]; cbn in *.
  - injection E as ->. constructor; [exact X|]. apply forall2_refl. exact H.
  - constructor; [apply H|]. eapply IH; eassumption.
Qed.
Lemma forall2_nth {A} (R : A -> A -> Prop) : forall l m, Forall2 R l m -> forall i x, nth_error l i = Some x -> exists y, nth_error m i = Some y /\ R x y.
Proof. induction 1 as [|a b l m H1 H2 IH]; intros [|i] x E; cbn in *; try discriminate; [injection E as <-; eauto|eauto]. Qed.

Lemma forall2_len {A} (R : A -> A -> Prop) : forall l m, Forall2 R l m -> length l = length m.
Proof. induction 1; cbn; congruence. Qed.

Lemma kept_refl st : kept st st.
Proof. split; [reflexivity|]. apply forall2_refl, same_refl. Qed.
Lemma kept_trans a b c : kept a b -> kept b c -> kept a c.
Proof. intros [A1 A2] [B1 B2]. split; [congruence|]. eapply forall2_trans; [apply same_trans|exact A2|exact B2]. Qed.
Lemma kept_change st s : kept st (changeBracket st s).
Proof.
  unfold changeBracket. destruct (findBD16ForPos st (sl s)) as [i|]; [|apply kept_refl]. cbn [obind]. destruct (nth_error (s_hs st) i) as [h|] eqn:EH; [|apply kept_refl]. cbn [obind].
  split; [reflexivity|]. cbn [s_hs]. eapply forall2_nset; [apply same_refl|exact EH|]. repeat split; cbn [h_bd pairs]; [apply change_core|apply change_closes].
Qed.
Lemma kept_changed : forall l st, kept st (changed st l).
Proof.
  induction l as [|s l IH]; intros st; [apply kept_refl|]. cbn [changed fold_left]. eapply kept_trans; [apply kept_change|]. apply IH.
Qed.
Lemma kept_walk pos : forall hs hs', Forall2 same_pairs hs hs' -> forall n i best, bd16_walk hs' n pos i best = bd16_walk hs n pos i best.
Proof.
  intros hs hs' F. induction n as [|n IH]; intros i best; [reflexivity|]. cbn [bd16_walk].
  destruct (nth_error hs i) as [h|] eqn:EH.
  - destruct (forall2_nth _ _ _ F i h EH) as (h' & EH' & S1 & S2 & S3 & _). rewrite EH'. cbn [obind]. rewrite S1, S2, S3. destruct (h_next h); [apply IH|reflexivity].
  - assert (E : nth_error hs' i = None) by (apply nth_error_None; rewrite <- (forall2_len _ _ _ F); apply nth_error_None; exact EH). rewrite E. reflexivity.
Qed.
Lemma kept_find st st' pos : kept st st' -> findBD16ForPos st' pos = findBD16ForPos st pos.
Proof.
  intros [K1 K2]. unfold findBD16ForPos. rewrite K1. destruct (irs_find _ 0); [|reflexivity]. cbn [obind]. rewrite <- (forall2_len _ _ _ K2). apply kept_walk. exact K2.
Qed.

(* An opening bracket has the same partner after other brackets have been resolved. *)
Lemma kept_partner st st' o : kept st st' -> clz o = cBRACKO -> fst (findBracket st' o) = fst (findBracket st o).
Proof.
  intros K CO. unfold findBracket. cbn [fst]. rewrite (kept_find _ _ _ K). destruct (findBD16ForPos st (sl o)) as [i|]; [|reflexivity]. cbn [obind]. destruct K as [_ K].
  destruct (nth_error (s_hs st) i) as [h|] eqn:EH.
  - destruct (forall2_nth _ _ _ K i h EH) as (h' & EH' & _ & _ & _ & S4 & _). rewrite EH'. cbn [obind]. rewrite CO, Z.eqb_refl.
    pose proof (find_core o CO _ _ S4) as X. destruct (find_pairing (pairs (h_bd h')) o), (find_pairing (pairs (h_bd h)) o); try discriminate; [|reflexivity].
    cbn in X |- *. injection X as _ X. rewrite X. reflexivity.
  - assert (E : nth_error (s_hs st') i = None) by (apply nth_error_None; rewrite <- (forall2_len _ _ _ K); apply nth_error_None; exact EH). rewrite E. reflexivity.
Qed.

(* ---- rule N0 ---- *)
Theorem isolate_rule input r len rest ss st : props_ok props -> lens_pos input -> total (para input) < 65536 ->
  para input = (r, len) :: rest -> eff r <> cNSM -> no_AL (para input) ->
  matched 0 (marks_of md props upper cNULL 0 (para input)) = true ->
  Scan md props upper None input = Ok (ss ++ [stopper]) -> ScanFinal md props upper None input = Ok st -> roomy false (map clz ss) = true ->
  forall o l p, In o ss -> clz o = cBRACKO -> p_store p = changed st l -> nth_error (p_stack p) (p_sp p) = Some o ->
    match fst (findBracket st o) with
    | None => exists p', performRuleN0 findBracket changeBracket p = Some (p', 1) /\ p_stack p' = p_stack p /\ p_sp p' = p_sp p /\ p_store p' = p_store p
    | Some c => exists A op W op' V k p' jmp, seats [] ss = A ++ (op, o) :: W ++ (op', c) :: V /\ seat op' = seat op /\ clz c = cBRACKC /\
        performRuleN0 findBracket changeBracket p = Some (p', jmp) /\ p_stack p' = nset (p_stack p) (p_sp p) (with_clz o k) /\ p_sp p' = p_sp p /\
        p_store p' = changed st (l ++ [with_clz o k]) /\
        (let e := direction (outer md) op in
         let s := if sl o =? 0 then e else last_strong (beginning op) (map clz (fellows (seat op) A)) in
         let inside := map clz (fellows (seat op) W) in
         k = n0 e s inside \/ k = e /\ s = e /\ existsb (Z.eqb e) inside = false /\ existsb (Z.eqb (opposite e)) inside = false) /\
        exists o', fst (findBracket (p_store p') c) = Some o' /\ sl o' = sl o /\ clz o' = k
    end.
Proof.
  intros PO L B EP EF NA M H1 H2 RO o l p IO CO EPS EN.
  assert (KP : kept st (changed st l)) by apply kept_changed.
  pose proof (kept_partner st _ o KP CO) as FP.
  assert (FB : findBracket (changed st l) o = (fst (findBracket st o), changed st l)) by (rewrite <- FP; reflexivity).
  unfold performRuleN0. rewrite EN. cbn [obind]. rewrite EPS, FB, CO, Z.eqb_refl.
  destruct (fst (findBracket st o)) as [c|] eqn:EC.
  2: { eexists. split; [reflexivity|]. cbn. auto. }
  destruct (text_partner input r len rest ss st PO L ltac:(lia) EP EF M H1 H2 o c IO CO EC) as (i & h & es & pg & F1 & F2 & EH & EB & AS & EPG & GO & GC & CC & A & op & W & op' & V & SE & SS).
  assert (BO : isbracket o = true) by (unfold isbracket; rewrite CO; reflexivity).
  assert (BC : isbracket c = true) by (unfold isbracket; rewrite CC; reflexivity).
  pose proof (isolate_n0 input r len rest ss PO L B EP EF NA H1 RO A op o W op' c V SE SS BO BC) as N. cbv zeta in N. unfold n0_code in N.
  set (cj := if has_match_after c o then (se o, -2) else if has_opposite_after c o then (if dcStrong (sctx o) =? so o then so o else se o, -2) else (cNI, -1)).
  set (k := if has_match_after c o then se o else if has_opposite_after c o then (if dcStrong (sctx o) =? so o then so o else se o) else cNI) in N.
  assert (CK : fst cj = k) by (unfold cj, k; destruct (has_match_after c o); [reflexivity|]; destruct (has_opposite_after c o); reflexivity).
  fold cj. destruct cj as [k0 jmp]. cbn in CK. subst k0.
  exists A, op, W, op', V, k. eexists. exists jmp. split; [exact SE|]. split; [exact SS|]. split; [exact CC|]. split; [reflexivity|].
  split; [reflexivity|]. split; [reflexivity|]. cbn [with_store p_store].
  split; [unfold changed; rewrite fold_left_app; reflexivity|]. split; [exact N|].
  (* the closing bracket *)
  destruct KP as [KP1 KP2]. destruct (forall2_nth _ _ _ KP2 i h EH) as (h' & EH' & _ & _ & _ & S4 & S5).
  assert (FO : findBD16ForPos (changed st l) (sl o) = Some i) by (rewrite (kept_find st); [exact F1|split; assumption]).
  set (st' := changeBracket (changed st l) (with_clz o k)).
  assert (K' : kept st st') by (eapply kept_trans; [|apply kept_change]; split; assumption).
  assert (HS : nth_error (s_hs st') i = Some (mkhr (mkh (bstack (h_bd h')) (change_opening (pairs (h_bd h')) (with_clz o k))) (h_first h') (h_last h') (h_next h'))).
  { unfold st', changeBracket. change (sl (with_clz o k)) with (sl o). rewrite FO. cbn [obind]. rewrite EH'. cbn [obind s_hs]. apply nset_same. apply nth_error_Some. rewrite EH'. discriminate. }
  unfold findBracket. cbn [fst]. rewrite (kept_find st st' (sl c) K'), F2. cbn [obind]. rewrite HS. cbn [obind h_bd pairs].
  assert (C2 : clz c <> cBRACKO) by (rewrite CC; discriminate).
  destruct (find_spec o _ _ EPG) as [IP SP].
  assert (exists q, In q (pairs (h_bd h')) /\ pair_core q = pair_core pg) as (q & IQ & EQ).
  { assert (X : In (pair_core pg) (map pair_core (pairs (h_bd h')))) by (rewrite S4; apply in_map; exact IP). apply in_map_iff in X. destruct X as (q & A1 & A2). eauto. }
  injection EQ as Q1 Q2. rewrite GO in Q1. rewrite GC in Q2.
  assert (ND : NoDup (map (fun p => sl (pg_close p)) (pairs (h_bd h)))) by (rewrite EB; apply (closes_run es 0 new_handler AS); constructor).
  rewrite (find_close c _ (mkpg (mkbp (with_clz (pg_open q) k) (bp_pair (pg_brk q))) (pg_close q))).
  - cbn [obind]. apply Z.eqb_neq in C2. rewrite C2. eexists. split; [reflexivity|]. cbn. split; [exact Q1|reflexivity].
  - rewrite change_closes, S5. exact ND.
  - apply (change_in _ (with_clz o k) q IQ). exact Q1.
  - exact C2.
  - cbn [pg_close]. rewrite Q2. reflexivity.
Qed.
End Texts.
