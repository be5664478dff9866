(* PropertiesShared.v -- C67: the two goroutines of ResolveParagraph and the bracket handlers they share. *)
From Coq Require Import List ZArith Lia Bool.
From Verif Require Import Base Scrap Brackets Trie Rules RuleProofs Reorder Utf8 Scanner ScannerProofs TextScan PropertiesScanner Resolver ResolverProofs ResolverFlat ResolverText ResolverFuel PropertiesResolver PropertiesNested Shared SharedProofs SharedMixed.
Import ListNotations.
Open Scope Z_scope.

Lemma paragraph_parts n md props upper markup input lv extra : ResolveParagraph n md props upper markup input = Ok (lv, extra) ->
  exists ss fin, Scan md props upper markup input = Ok ss /\ ScanFinal md props upper markup input = Ok fin /\
    ResolveLevels the_trie the_tab findBracket changeBracket n md ss fin = Ok (lv, extra).
Proof.
  unfold ResolveParagraph. rewrite prepared. cbn [rbind].
  destruct (Scan md props upper markup input) as [ss| |]; [|discriminate|discriminate]. cbn [rbind].
  destruct (ScanFinal md props upper markup input) as [fin| |]; [|discriminate|discriminate]. cbn [rbind]. eauto.
Qed.

(* Texts without isolates: every schedule of the two goroutines ends, with both terminated and with the
   levels of Resolver.v, in which all brackets are looked up after the scanner has ended.  At no time
   does the scanner write the table of isolating run sequences while the parser reads it. *)
Theorem C67_no_isolates_partial :
  forall md props upper input n lv,
    Forall (fun x => no_iso (eff md props upper (fst x))) input ->
    ResolveParagraph n md props upper None input = Ok (lv, []) ->
    let c0 := (start_shared md input, ResolveS the_trie the_tab n md) in
    Acc (fun b a => sstep md props upper None a b) c0 /\
    (exists c, sreach md props upper None c0 c /\ sstuck md props upper None c) /\
    (forall c, sreach md props upper None c0 c -> sstuck md props upper None c -> exists st, c = (Ended st, SDone (Ok lv))) /\
    (forall c, sreach md props upper None c0 c -> ~ racing md props upper None c).
Proof.
  intros md props upper input n lv F E c0. destruct (paragraph_parts _ _ _ _ _ _ _ _ E) as (ss & fin & E1 & E2 & E3).
  assert (O : Forall (okS no_iso) ss) by (eapply sent_okS; eauto using no_iso_L, no_iso_R, no_iso_EN, no_iso_AN, no_iso_NI, no_iso_NULL).
  destruct (resolve_ni _ _ _ _ _ _ _ O E3) as (st & X).
  destruct (shared_schedules _ _ _ _ _ _ _ _ _ _ _ _ _ E1 E2 X) as (A & B & C). split; [exact A|]. split; [exact B|]. split.
  - intros [s p] R ST. destruct (C _ R ST) as [H1 (st' & H2)]. cbn [fst snd] in H1, H2. subst. eauto.
  - intros c R. eapply never_racing; eauto.
Qed.
Print Assumptions C67_no_isolates_partial.
(* a number, brackets and letters of both directions *)
Definition input67 : list (Z * Z) := bytes [97; 48; 32; 40; 65; 32; 48; 97; 41; 65].
Example C67_no_isolates_ex : Forall (fun x => no_iso (eff plain tab1 noupper (fst x))) input67 /\
  exists lv, ResolveParagraph 200 plain tab1 noupper None input67 = Ok (lv, []) /\
    map (fun s => (clz s, sl s, sr s)) (lv_scraps lv) = [(cLRI, 0, 0); (cL, 0, 4); (cR, 4, 5); (cEN, 5, 6); (cL, 7, 9); (cR, 9, 10); (cPDI, 10, 10)].
Proof.
  split; [|eexists; split; vm_compute; reflexivity].
  apply Forall_forall. intros x H. cbn in H. repeat destruct H as [<-|H]; try contradiction; vm_compute; repeat split; discriminate.
Qed.

(* In particular for the texts of C30. *)
Theorem C67_calm_partial :
  forall md props upper rtl input r len rest n,
    props_ok props -> lens_ok input -> total (para md props input) < 2 ^ 32 ->
    para md props input = (r, len) :: rest -> eff md props upper r <> cNSM -> (rtl = false -> m_r2l md = false) ->
    calm rtl cL cNULL (classes_of md props upper (para md props input)) = true ->
    Forall (fun x => no_iso (eff md props upper (fst x))) input ->
    (rounds (S (length input)) <= n)%nat ->
    let c0 := (start_shared md input, ResolveS the_trie the_tab n md) in
    Acc (fun b a => sstep md props upper None a b) c0 /\
    exists lv, ResolveParagraph n md props upper None input = Ok (lv, []) /\
      forall c, sreach md props upper None c0 c ->
        ~ racing md props upper None c /\ (sstuck md props upper None c -> exists st, c = (Ended st, SDone (Ok lv))).
Proof.
  intros md props upper rtl input r len rest n A B C D E F G I0 H c0.
  destruct (resolve_text md props upper rtl input r len rest n A B C D E F G H) as (lv & X & _).
  destruct (C67_no_isolates_partial md props upper input n lv I0 X) as (P & _ & Q & R). split; [exact P|]. exists lv. split; [exact X|]. eauto.
Qed.
Print Assumptions C67_calm_partial.
Example C67_calm_ex : exists r len rest, para plain tab1 input1 = (r, len) :: rest /\ eff plain tab1 noupper r <> cNSM /\
  calm true cL cNULL (classes_of plain tab1 noupper (para plain tab1 input1)) = true /\
  Forall (fun x => no_iso (eff plain tab1 noupper (fst x))) input1.
Proof.
  eexists _, _, _. split; [vm_compute; reflexivity|]. split; [vm_compute; discriminate|]. split; [vm_compute; reflexivity|].
  apply Forall_forall. intros x H. cbn in H. repeat destruct H as [<-|H]; try contradiction; vm_compute; repeat split; discriminate.
Qed.

(* Texts without brackets, with any isolates and any markup: every schedule ends with the same levels, and
   the scanner has terminated exactly if all messages have been received. *)
Theorem C67_no_brackets_partial :
  forall md props upper markup input n lv extra,
    Forall (fun x => no_br (eff md props upper (fst x))) input ->
    ResolveParagraph n md props upper markup input = Ok (lv, extra) ->
    let c0 := (start_shared md input, ResolveS the_trie the_tab n md) in
    Acc (fun b a => sstep md props upper markup a b) c0 /\
    (exists c, sreach md props upper markup c0 c /\ sstuck md props upper markup c) /\
    (forall c, sreach md props upper markup c0 c -> sstuck md props upper markup c ->
      snd c = SDone (Ok lv) /\
      match extra with [] => exists st, fst c = Ended st | m :: _ => exists st q k, fst c = Sending st (m :: q) k end).
Proof.
  intros md props upper markup input n lv extra F E c0. destruct (paragraph_parts _ _ _ _ _ _ _ _ E) as (ss & fin & E1 & E2 & E3).
  assert (O : Forall (okS no_br) ss).
  { eapply sent_okS; [..|exact E1|exact E2|exact F]; auto using no_br_L, no_br_R, no_br_EN, no_br_AN, no_br_NI, no_br_NULL.
    right. repeat split; discriminate. }
  exact (shared_schedules _ _ _ _ _ _ _ _ _ _ _ _ _ E1 E2 (resolve_nb _ _ _ _ _ _ _ _ O E3 fin)).
Qed.
Print Assumptions C67_no_brackets_partial.
(* two nested isolates *)
Definition input67b : list (Z * Z) := bytes [97; 60; 65; 62; 97; 61; 65; 61; 97; 48].
Example C67_no_brackets_ex : Forall (fun x => no_br (eff plain tab3 noupper (fst x))) input67b /\
  exists lv, ResolveParagraph 300 plain tab3 noupper None input67b = Ok (lv, []).
Proof.
  split; [|eexists; vm_compute; reflexivity].
  apply Forall_forall. intros x H. cbn in H. repeat destruct H as [<-|H]; try contradiction; vm_compute; split; discriminate.
Qed.

(* Texts with isolates and with brackets outside of them, without numbers: every schedule ends, with both
   goroutines terminated and with the levels of Resolver.v, and the parser looks up brackets only when
   the scanner no longer writes. *)
Theorem C67_mixed_partial :
  forall md props upper input n lv c cs,
    map (fun x => eff md props upper (fst x)) (para md props input) = c :: cs -> c <> cNSM ->
    Forall numberless (c :: cs) -> Forall (fun x => is_class (eff md props upper (fst x))) input ->
    outside 0 cNULL (c :: cs) = true ->
    ResolveParagraph n md props upper None input = Ok (lv, []) ->
    let c0 := (start_shared md input, ResolveS the_trie the_tab n md) in
    Acc (fun b a => sstep md props upper None a b) c0 /\
    (exists c, sreach md props upper None c0 c /\ sstuck md props upper None c) /\
    (forall c, sreach md props upper None c0 c -> sstuck md props upper None c -> exists st, c = (Ended st, SDone (Ok lv))) /\
    (forall c, sreach md props upper None c0 c -> ~ racing md props upper None c).
Proof.
  intros md props upper input n lv c cs EC NS NL CL OU E c0. destruct (paragraph_parts _ _ _ _ _ _ _ _ E) as (ss & fin & E1 & E2 & E3).
  destruct (Scan_clean _ _ _ _ _ _ _ EC NS NL OU E1) as (body & ESS & FB & CS).
  assert (O : Forall (okS (fun c => is_class c \/ c = cNULL)) ss).
  { eapply (sent_okS md props upper None (fun c => is_class c \/ c = cNULL)); [..|exact E1|exact E2|]; try (left; split; [discriminate|reflexivity]); auto.
    eapply Forall_impl; [|exact CL]. cbn beta. auto. }
  assert (G : Forall (okS numberless0) ss).
  { rewrite ESS in O |- *. apply Forall_app in O. destruct O as [O1 O2]. apply Forall_app. split.
    - rewrite Forall_forall in O1, FB |- *. intros s IN. destruct (O1 _ IN) as [_ S2]. destruct (FB _ IN) as (S1 & S3 & S4). split; [|exact S2]. split; auto.
    - constructor; [|constructor]. split; [split; [right; reflexivity|split; discriminate]|left; reflexivity]. }
  assert (BN : Forall (fun s => clz s <> cNULL) body).
  { eapply Forall_impl; [|exact FB]. cbn beta. intros s [[_ H] _] X. rewrite X in H. vm_compute in H. discriminate. }
  destruct (resolve_mixed _ _ _ _ _ _ _ ESS BN eq_refl G CS E3) as (st & X & W).
  destruct (shared_schedules _ _ _ _ _ _ _ _ _ _ _ _ _ E1 E2 X) as (A & B & C). split; [exact A|]. split; [exact B|]. split.
  - intros [s p] R ST. destruct (C _ R ST) as [H1 (st' & H2)]. cbn [fst snd] in H1, H2. subst. eauto.
  - intros x R. apply waits_calm. eapply reach_waits; [exact R|]. destruct (drains_start _ _ _ _ _ _ _ _ _ _ E1 E2) as (fin' & D & F).
    exists ss, fin'. split; [exact D|]. cbn [snd]. eapply still_rest; [|exact W]. rewrite <- F. reflexivity.
Qed.
Print Assumptions C67_mixed_partial.
(* brackets around an isolate, and another one *)
Definition input67c : list (Z * Z) := bytes [65; 40; 60; 65; 61; 97; 41; 65; 60; 97; 61].
Example C67_mixed_ex : exists c cs, map (fun x => eff plain tab3 noupper (fst x)) (para plain tab3 input67c) = c :: cs /\ c <> cNSM /\
  Forall numberless (c :: cs) /\ Forall (fun x => is_class (eff plain tab3 noupper (fst x))) input67c /\ outside 0 cNULL (c :: cs) = true /\
  exists lv, ResolveParagraph 300 plain tab3 noupper None input67c = Ok (lv, []) /\
    map (fun s => (clz s, sl s, sr s)) (lv_scraps lv) = [(cLRI, 0, 0); (cR, 0, 1); (cL, 1, 7); (cR, 7, 8); (cL, 8, 11); (cPDI, 11, 11)].
Proof.
  eexists _, _. split; [vm_compute; reflexivity|]. split; [discriminate|]. split; [repeat (constructor; [repeat split; discriminate|]); constructor|].
  split; [repeat (constructor; [split; [discriminate|reflexivity]|]); constructor|]. split; [vm_compute; reflexivity|]. eexists. split; vm_compute; reflexivity.
Qed.

(* ---- schedulers, for the examples ---- *)
Section Schedulers.
Context (md : mode) (props : Z -> Z * Z).
Notation config := (ssender * sproc (res levels))%type.
(* The scanner runs as far as it can, or only if the parser is blocked; at most n steps. *)
Fixpoint schedule (eager : bool) (n : nat) (c : config) : config :=
  match n with
  | O => c
  | S n =>
      let sc := match scanner_step md props noupper None (fst c) with Some s => Some (s, snd c) | None => None end in
      let pc := parser_step c in
      match (if eager then match sc with Some d => Some d | None => pc end else match pc with Some d => Some d | None => sc end) with
      | Some d => schedule eager n d
      | None => c
      end
  end.
Lemma schedule_reach eager : forall n c, sreach md props noupper None c (schedule eager n c).
Proof.
  induction n as [|n IH]; intros c; cbn [schedule]; [apply sreach_refl|].
  match goal with |- sreach _ _ _ _ _ (match ?x with _ => _ end) => destruct x as [d|] eqn:E end; [|apply sreach_refl].
  eapply sreach_step; [|apply IH]. destruct c as [s p]. cbn [fst snd] in E.
  destruct (scanner_step md props noupper None s) as [s'|] eqn:E1, (parser_step (s, p)) as [d'|] eqn:E2, eager; try discriminate; injection E as <-;
    try (right; exact E2); left; exists s'; auto.
Qed.
Lemma stopped (c : config) : scanner_step md props noupper None (fst c) = None -> parser_step c = None -> sstuck md props noupper None c.
Proof. intros E1 E2 d [(s & E & _)|E]; congruence. Qed.
End Schedulers.
Definition spans_of (p : sproc (res levels)) : option (list (Z * Z * Z * list (list (Z * Z * Z)))) :=
  match p with
  | SDone (Ok lv) => Some (map (fun s => (clz s, sl s, sr s, map (map (fun k => (clz k, sl k, sr k))) (kids s))) (lv_scraps lv))
  | _ => None
  end.

(* Brackets inside an isolate: the levels depend on the schedule.  If the scanner has seen the next isolate
   in time, the brackets of the first one are resolved, otherwise they are not. *)
Definition twice : list (Z * Z) := bytes [97; 60; 65; 40; 65; 41; 65; 61; 97; 32; 60; 97; 61; 97].
Theorem C67_schedule_refuted :
  let c0 := (start_shared plain twice, ResolveS the_trie the_tab 300 plain) in
  exists c d,
    sreach plain tab3 noupper None c0 c /\ sstuck plain tab3 noupper None c /\
    sreach plain tab3 noupper None c0 d /\ sstuck plain tab3 noupper None d /\
    spans_of (snd c) = Some [(cLRI, 0, 0, []); (cL, 0, 14, [[(cLRI, 1, 2); (cR, 2, 7); (cPDI, 7, 8)]; [(cLRI, 10, 11); (cL, 11, 12); (cPDI, 12, 13)]]); (cPDI, 14, 14, [])] /\
    spans_of (snd d) = Some [(cLRI, 0, 0, []);
      (cL, 0, 14, [[(cLRI, 1, 2); (cR, 2, 3); (cBRACKO, 3, 4); (cR, 4, 5); (cNI, 5, 6); (cR, 6, 7); (cPDI, 7, 8)]; [(cLRI, 10, 11); (cL, 11, 12); (cPDI, 12, 13)]]); (cPDI, 14, 14, [])].
Proof.
  intros c0. exists (schedule plain tab3 true 3000 c0), (schedule plain tab3 false 3000 c0).
  split; [apply schedule_reach|]. split; [apply stopped; vm_compute; reflexivity|]. split; [apply schedule_reach|].
  split; [apply stopped; vm_compute; reflexivity|]. split; vm_compute; reflexivity.
Qed.
Print Assumptions C67_schedule_refuted.
Example C67_schedule_ex : total (para plain tab3 twice) = 14.
Proof. reflexivity. Qed.

(* A number followed by an isolate: the parser looks up the map of isolating run sequences, after rule
   W7, at a time at which the scanner may write it. *)
Definition number_isolate : list (Z * Z) := bytes [97; 48; 97; 65; 60; 97; 61; 97].
Definition later (s : ssender) : ssender := match scanner_step plain tab3 noupper None s with Some s' => s' | None => s end.
Lemma sreach_trans md props upper markup {A} (a b c : ssender * sproc A) :
  sreach md props upper markup a b -> sreach md props upper markup b c -> sreach md props upper markup a c.
Proof. induction 1 as [|x y z ST R IH]; [auto|]. intros H. eapply sreach_step; [exact ST|]. apply IH, H. Qed.
Theorem C67_race_refuted :
  let c0 := (start_shared plain number_isolate, ResolveS the_trie the_tab 300 plain) in
  exists c, sreach plain tab3 noupper None c0 c /\ racing plain tab3 noupper None c /\
    exists s', scanner_step plain tab3 noupper None (fst c) = Some s' /\ length (s_irs (memory (fst c))) = 1%nat /\ length (s_irs (memory s')) = 2%nat.
Proof.
  intros c0. exists (later (fst (schedule plain tab3 false 17 c0)), snd (schedule plain tab3 false 17 c0)).
  split; [|split].
  - eapply sreach_trans; [apply (schedule_reach plain tab3 false 17)|]. eapply sreach_step; [left|apply sreach_refl].
    exists (later (fst (schedule plain tab3 false 17 c0))). split; [vm_compute; reflexivity|reflexivity].
  - split; [|vm_compute; exact Logic.I]. exists (later (later (fst (schedule plain tab3 false 17 c0)))). cbn [fst].
    split; [vm_compute; reflexivity|]. vm_compute. discriminate.
  - exists (later (later (fst (schedule plain tab3 false 17 c0)))). cbn [fst]. split; [vm_compute; reflexivity|]. split; vm_compute; reflexivity.
Qed.
Print Assumptions C67_race_refuted.
Example C67_race_ex : Forall (fun x => no_br (eff plain tab3 noupper (fst x))) number_isolate.
Proof. apply Forall_forall. intros x H. cbn in H. repeat destruct H as [<-|H]; try contradiction; vm_compute; split; discriminate. Qed.

(* The last handler in the chain is never found: findBD16ForPos stops in front of it. *)
Lemma walk_last hs : forall n pos i best j, bd16_walk hs n pos i best = Some j ->
  j = best \/ exists h k, nth_error hs j = Some h /\ h_next h = Some k.
Proof.
  induction n as [|n IH]; intros pos i best j E; [discriminate|]. cbn [bd16_walk] in E.
  destruct (nth_error hs i) as [h|] eqn:EH; [|discriminate]. cbn [obind] in E. destruct (h_next h) as [k|] eqn:EN; [|injection E as <-; auto].
  destruct (IH _ _ _ _ E) as [H|H]; [|auto]. destruct (_ && _); [|auto]. subst j. right. eauto.
Qed.
(* So brackets in the last isolate of a text are never resolved. *)
Theorem C59_last_isolate_refuted :
  (forall st pos j h, findBD16ForPos st pos = Some j -> nth_error (s_hs st) j = Some h -> h_next h = None ->
     irs_find (s_irs st) 0 = Some j) /\
  exists lv, ResolveParagraph 300 plain tab3 noupper None (bytes [97; 60; 65; 40; 65; 41; 65; 61; 97]) = Ok (lv, []) /\
    spans_of (SDone (Ok lv)) = Some [(cLRI, 0, 0, []);
      (cL, 0, 9, [[(cLRI, 1, 2); (cR, 2, 3); (cBRACKO, 3, 4); (cR, 4, 5); (cNI, 5, 6); (cR, 6, 7); (cPDI, 7, 8)]]); (cPDI, 9, 9, [])].
Proof.
  split.
  - intros st pos j h E EH EN. unfold findBD16ForPos in E. destruct (irs_find (s_irs st) 0) as [i|]; [|discriminate]. cbn [obind] in E.
    destruct (walk_last _ _ _ _ _ _ E) as [-> |(h' & k & H1 & H2)]; [reflexivity|]. congruence.
  - eexists. split; vm_compute; reflexivity.
Qed.
Print Assumptions C59_last_isolate_refuted.
Example C59_last_isolate_ex : exists fin, ScanFinal plain tab3 noupper None (bytes [97; 60; 65; 40; 65; 41; 65; 61; 97]) = Ok fin /\
  map (fun h => (h_first h, h_last h, h_next h, length (pairs (h_bd h)))) (s_hs fin) = [(0, 0, Some 1%nat, 0%nat); (1, 7, None, 1%nat)].
Proof. eexists. split; vm_compute; reflexivity. Qed.
