(* SharedProofs.v -- schedules of the two goroutines with shared bracket handlers. *)
From Coq Require Import List ZArith Lia Bool.
From Verif Require Import Base Scrap Brackets Trie Rules RuleProofs Reorder Scanner Resolver ScannerProofs ResolverFlat Shared.
Import ListNotations.
Open Scope Z_scope.

(* ---- a process run on all messages; lookups are answered by the final handlers, and only after the
   last message (None: a lookup before) ---- *)
Fixpoint exec {A} (p : sproc A) (l : list scrap) (st : scst) : option (A * list scrap * scst) :=
  match p with
  | SDone a => Some (a, l, st)
  | STau p => exec p l st
  | SRecv k => match l with [] => exec (k scrap0) [] st | m :: l => exec (k m) l st end
  | SFind s k => match l with [] => exec (k (fst (findBracket st s))) [] st | _ => None end
  | SChange s p => match l with [] => exec p [] (changeBracket st s) | _ => None end
  | SLook _ p => exec p l st
  end.

Lemma exec_sbind {A B} (m : sproc (res A)) (f : A -> sproc (res B)) : forall l st,
  exec (sbind m f) l st = match exec m l st with
                          | Some (Ok a, l', st') => exec (f a) l' st'
                          | Some (Panic, l', st') => Some (Panic, l', st')
                          | Some (NoFuel, l', st') => Some (NoFuel, l', st')
                          | None => None
                          end.
Proof.
  induction m as [[a| |]|m IH|k IH|s k IH|s m IH|x m IH]; intros l st; cbn [sbind exec]; auto.
  - destruct l as [|x l]; apply IH.
  - destruct l as [|x l]; [apply IH|reflexivity].
  - destruct l as [|x l]; [apply IH|reflexivity].
Qed.

(* Only the handlers and the map of the scanner matter. *)
Lemma find_rest a b s : at_rest a = at_rest b -> fst (findBracket a s) = fst (findBracket b s).
Proof.
  intros E. unfold at_rest in E. injection E as E1 E2 E3 E4 E5. unfold findBracket, findBD16ForPos. cbn [fst]. rewrite E1, E2. reflexivity.
Qed.
Lemma change_rest a b s : at_rest a = at_rest b -> at_rest (changeBracket a s) = at_rest (changeBracket b s).
Proof.
  intros E. pose proof E as E0. unfold at_rest in E. injection E as E1 E2 E3 E4 E5. unfold changeBracket, findBD16ForPos. rewrite E1, E2.
  destruct (do i <- _; _) as [[i h]|]; [|exact E0]. unfold at_rest. cbn [s_hs s_irs s_stack s_bd s_ctx]. rewrite E3, E4, E5. reflexivity.
Qed.
Lemma exec_rest {A} (p : sproc A) : forall l a b r l' a', at_rest a = at_rest b -> exec p l a = Some (r, l', a') ->
  exists b', exec p l b = Some (r, l', b') /\ at_rest a' = at_rest b'.
Proof.
  induction p as [x|p IH|k IH|s k IH|s p IH|x p IH]; intros l a b r l' a' E X; cbn [exec] in X |- *; eauto.
  - injection X as -> -> ->. eauto.
  - destruct l as [|m l]; eapply IH; eauto.
  - destruct l as [|m l]; [|discriminate]. rewrite <- (find_rest a b s E). eapply IH; eauto.
  - destruct l as [|m l]; [|discriminate]. eapply IH; [|exact X]. apply change_rest, E.
Qed.

(* ---- the scanner alone ---- *)
Section System.
Context (md : mode) (props : Z -> Z * Z) (upper : Z -> bool) (markup : option (Z -> Z)).
Notation scan_head := (scan_head md props upper markup).
Notation scan_step := (scan_step md props upper markup).
Notation scan_loop := (scan_loop md props upper markup).
Notation scan_final := (scan_final md props upper markup).
Notation scanner_step := (scanner_step md props upper markup).

(* The two halves of a round are the round of Scanner.v. *)
Lemma scan_split st cur al : scan_step st cur al =
  match scan_head st cur al with
  | None => None
  | Some (st', q, CEnd) => Some (q, None)
  | Some (st', q, CScan cur' al') => Some (q, Some (st', cur', al'))
  | Some (st', q, CPrep r la isAL cur' al') => match scan_tail st' r la isAL cur' al' with Some x => Some (q, Some x) | None => None end
  end.
Proof.
  unfold Scanner.scan_step, Shared.scan_head. destruct (nextRune md props markup st (sr cur)) as [[[[r len] c]|] st1].
  - cbv zeta. destruct (finished cur _) eqn:F; [|reflexivity].
    destruct (if negb (clz cur =? cNULL) && isisolate cur then _ else _) as [st2|]; [|reflexivity]. cbn [obind].
    unfold scan_tail. match goal with |- (let '(_, _) := ?x in _) = _ => destruct x as [st3 cur'] end.
    destruct (prepareRuleBD16 st3 r _) as [st4|]; reflexivity.
  - destruct (if isisolate cur then _ else _) as [st2|]; reflexivity.
Qed.

(* The scanner will send l, close the channel, and leave the handlers in state fin. *)
Inductive drains : ssender -> list scrap -> scst -> Prop :=
| d_ended st : drains (Ended st) [] st
| d_send st m q k l fin : drains (Sending st q k) l fin -> drains (Sending st (m :: q) k) (m :: l) fin
| d_step s s' l fin : scanner_step s = Some s' -> drains s' l fin -> drains s l fin.

Lemma sends st q k l fin : drains (Sending st [] k) l fin -> drains (Sending st q k) (q ++ l) fin.
Proof. intros D. induction q as [|m q IH]; cbn [app]; [exact D|]. apply d_send, IH. Qed.

Lemma drains_start : forall n st cur al ss fin, scan_loop n st cur al = Ok ss -> scan_final n st cur al = Ok fin ->
  exists fin', drains (Running st cur al) ss fin' /\ at_rest fin' = fin.
Proof.
  induction n as [|n IH]; intros st cur al ss fin E1 E2; [discriminate|]. cbn [Scanner.scan_loop] in E1. cbn [Resolver.scan_final] in E2.
  destruct (scan_step st cur al) as [[out next]|] eqn:ES; [|discriminate]. cbn [lift rbind] in E1, E2.
  pose proof (scan_split st cur al) as SP. rewrite ES in SP.
  destruct (scan_head st cur al) as [[[st1 q] k]|] eqn:EH; [|discriminate].
  assert (R : scanner_step (Running st cur al) = Some (Sending st1 q k)) by (cbn [Shared.scanner_step]; rewrite EH; reflexivity).
  destruct k as [|r la isAL cur' al'|cur' al'].
  - injection SP as -> ->. injection E1 as <-.
    assert (E : exists st2, (if isisolate cur then handleIsolatingRunSwitch (snd (nextRune md props markup st (sr cur))) cur else Some (snd (nextRune md props markup st (sr cur)))) = Some st2 /\ st2 = st1).
    { unfold Shared.scan_head in EH. destruct (nextRune md props markup st (sr cur)) as [[[[r len] c]|] st2].
      - exfalso. cbv zeta in EH. destruct (finished cur _); [|discriminate].
        destruct (if negb (clz cur =? cNULL) && isisolate cur then _ else _); discriminate.
      - cbn [snd]. destruct (if isisolate cur then _ else _) as [st3|]; [|discriminate]. injection EH as -> <-. eauto. }
    destruct E as (st2 & E & ->). cbv zeta in E2. rewrite E in E2. cbn [lift rbind] in E2. injection E2 as <-.
    exists st1. split; [|reflexivity]. eapply d_step; [exact R|]. replace q with (q ++ []) at 2 by apply app_nil_r. apply sends.
    eapply d_step; [reflexivity|]. apply d_ended.
  - destruct (scan_tail st1 r la isAL cur' al') as [[[st2 cur2] al2]|] eqn:ET; [|discriminate]. injection SP as -> ->.
    destruct (scan_loop n st2 cur2 al2) as [more| |] eqn:EL; [|discriminate|discriminate]. cbn [rbind] in E1. injection E1 as <-.
    destruct (IH _ _ _ _ _ EL E2) as (fin' & D & F). exists fin'. split; [|exact F].
    eapply d_step; [exact R|]. apply sends. eapply d_step; [cbn [Shared.scanner_step]; rewrite ET; reflexivity|]. exact D.
  - injection SP as -> ->. destruct (scan_loop n st1 cur' al') as [more| |] eqn:EL; [|discriminate|discriminate]. cbn [rbind] in E1. injection E1 as <-.
    destruct (IH _ _ _ _ _ EL E2) as (fin' & D & F). exists fin'. split; [|exact F].
    eapply d_step; [exact R|]. apply sends. eapply d_step; [reflexivity|]. exact D.
Qed.

Lemma drains_step s s' l fin : scanner_step s = Some s' -> drains s l fin -> drains s' l fin.
Proof.
  intros E D. destruct D as [st|st m q k l fin D|s s2 l fin E2 D].
  - discriminate.
  - discriminate.
  - rewrite E in E2. injection E2 as <-. exact D.
Qed.
Lemma drains_recv st m q k l fin : drains (Sending st (m :: q) k) l fin -> exists l', l = m :: l' /\ drains (Sending st q k) l' fin.
Proof. intros D. inversion D; subst; [eauto|discriminate]. Qed.

(* After the last message the handlers are final. *)
Lemma drained s l fin : drains s l fin ->
  match s with
  | Ended st | Sending st [] CEnd => l = [] /\ fin = st
  | Broken _ => False
  | _ => l <> []
  end.
Proof.
  induction 1 as [st|st m q k l fin D IH|s s' l fin E D IH].
  - auto.
  - discriminate.
  - destruct s as [st cur al|st [|m q] [|r la isAL cur al|cur al]|st|st]; try discriminate.
    + cbn [Shared.scanner_step] in E. destruct (scan_head st cur al) as [[[st' q] k]|] eqn:EH.
      * injection E as <-. destruct q as [|m q]; [|exact IH]. destruct k as [|r la isAL cur' al'|cur' al']; [|exact IH|exact IH].
        exfalso. unfold Shared.scan_head in EH. destruct (nextRune md props markup st (sr cur)) as [[[[r len] c]|] st2].
        -- cbv zeta in EH. destruct (finished cur _); [|discriminate].
           destruct (if negb (clz cur =? cNULL) && isisolate cur then _ else _); discriminate.
        -- destruct (if isisolate cur then _ else _) as [st3|]; discriminate.
      * injection E as <-. contradiction.
    + injection E as <-. exact IH.
    + cbn [Shared.scanner_step] in E. destruct (scan_tail st r la isAL cur al) as [[[st' cur'] al']|]; injection E as <-; [exact IH|contradiction].
    + injection E as <-. exact IH.
Qed.
Lemma drained_memory s fin : drains s [] fin -> memory s = fin /\ forall st, drains (with_memory s st) [] st.
Proof.
  intros D. pose proof (drained _ _ _ D) as H. destruct s as [st cur al|st [|m q] [|r la isAL cur al|cur al]|st|st]; try contradiction; try (now destruct H).
  - destruct H as [_ ->]. split; [reflexivity|]. intros st'. eapply d_step; [reflexivity|apply d_ended].
  - destruct H as [_ ->]. split; [reflexivity|]. intros st'. apply d_ended.
Qed.

(* ---- both ---- *)
Context {A : Type}.
Notation config := (ssender * sproc A)%type.
Notation sstep := (@sstep md props upper markup A).
Notation sreach := (@sreach md props upper markup A).
Notation sstuck := (@sstuck md props upper markup A).

(* Whatever happens, the parser ends with r, the messages extra are left, and the handlers are fin. *)
Definition will (r : A) (extra : list scrap) (st : scst) (c : config) : Prop :=
  exists l fin, drains (fst c) l fin /\ exec (snd c) l fin = Some (r, extra, st).

Lemma step_will r extra st c d : sstep c d -> will r extra st c -> will r extra st d.
Proof.
  intros H (l & fin & D & X). destruct c as [s p], H as [(s' & E & ->)|E]; cbn [fst snd] in *.
  - exists l, fin. split; [eapply drains_step; eauto|exact X].
  - destruct p as [a|p|k|x k|x p|x p]; cbn [parser_step] in E; cbn [exec] in X.
    + destruct s as [? ? ?|? [|? ?] ?|?|?]; discriminate.
    + assert (d = (s, p)) as -> by (destruct s as [? ? ?|? [|? ?] ?|?|?]; injection E as <-; reflexivity). exists l, fin. auto.
    + destruct s as [? ? ?|st0 [|m q] k0|?|st0]; try discriminate; injection E as <-.
      * destruct (drains_recv _ _ _ _ _ _ D) as (l' & -> & D'). exists l', fin. auto.
      * pose proof (drained _ _ _ D) as [-> _]. exists [], fin. auto.
    + assert (d = (s, k (fst (findBracket (memory s) x)))) as -> by (destruct s as [? ? ?|? [|? ?] ?|?|?]; injection E as <-; reflexivity).
      destruct l as [|m l]; [|discriminate]. destruct (drained_memory _ _ D) as [-> _]. exists [], fin. auto.
    + assert (d = (with_memory s (changeBracket (memory s) x), p)) as -> by (destruct s as [? ? ?|? [|? ?] ?|?|?]; injection E as <-; reflexivity).
      destruct l as [|m l]; [|discriminate]. destruct (drained_memory _ _ D) as [-> W]. eexists [], _. split; [apply W|exact X].
    + assert (d = (s, p)) as -> by (destruct s as [? ? ?|? [|? ?] ?|?|?]; injection E as <-; reflexivity). exists l, fin. auto.
Qed.
Lemma reach_will r extra st c d : sreach c d -> will r extra st c -> will r extra st d.
Proof. induction 1 as [|a b c S _ IH]; auto. intros W. apply IH. eapply step_will; eauto. Qed.

(* How it ends: the parser is done; the scanner is done if nothing is left and blocked otherwise. *)
Definition ended (r : A) (extra : list scrap) (c : config) : Prop :=
  snd c = SDone r /\ match extra with
                     | [] => exists st, fst c = Ended st
                     | m :: _ => exists st q k, fst c = Sending st (m :: q) k
                     end.
Lemma stuck_ended r extra st c : will r extra st c -> sstuck c -> ended r extra c.
Proof.
  intros (l & fin & D & X) ST. destruct c as [s p]. cbn [fst snd] in D, X.
  assert (S : (exists st, s = Ended st) \/ exists st m q k, s = Sending st (m :: q) k).
  { destruct s as [st1 cur al|st1 [|m q] k|st1|st1]; eauto 8; exfalso.
    - eapply ST. left. eexists. split; reflexivity.
    - destruct k; eapply ST; left; eexists; split; reflexivity.
    - exact (drained _ _ _ D). }
  assert (exists r', p = SDone r') as [r' ->].
  { destruct p as [r'|p|k|x k|x p|x p]; eauto; exfalso;
      destruct S as [(st1 & ->)|(st1 & m & q & k' & ->)]; eapply ST; right; reflexivity. }
  cbn [exec] in X. injection X as -> -> ->. split; [reflexivity|]. cbn [fst]. destruct S as [(st1 & ->)|(st1 & m & q & k' & ->)].
  - pose proof (drained _ _ _ D) as [-> _]. eauto.
  - destruct (drains_recv _ _ _ _ _ _ D) as (l' & -> & _). eauto.
Qed.

(* There is no infinite schedule. *)
Lemma schedules_finite r extra st : forall c, will r extra st c -> Acc (fun b a => sstep a b) c.
Proof.
  intros [s p]. revert s.
  induction p as [a|p IH|k IH|x k IH|x p IH|x p IH]; intros s (l & fin & D & X); cbn [fst snd] in D, X;
    (revert X; induction D as [st0|st0 m q k0 l fin D _|s s' l fin E D IHD]; intros X; constructor; intros d C;
      (match goal with C : sstep (?s0, ?p0) ?d0 |- _ =>
         assert (W : will r extra st d0) by (eapply step_will; [exact C|]; eexists _, _; split; [|exact X]; cbn [fst]; eauto using drains) end);
      destruct C as [(s2 & E2 & ->)|E2]; cbn [fst snd] in *;
      try discriminate;
      try (rewrite E in E2; injection E2 as <-; apply IHD; exact X);
      try (cbn [parser_step] in E2; injection E2 as <-; auto; fail)).
  all: try (destruct s as [? ? ?|? [|? ?] ?|?|?]; cbn [parser_step] in E2; try discriminate; injection E2 as <-; auto).
Qed.
End System.

(* A configuration is stuck or can make a step; a finite schedule has an end. *)
Lemma sprogress md props upper markup {A} (c : ssender * sproc A) :
  (exists d, sstep md props upper markup c d) \/ sstuck md props upper markup c.
Proof.
  destruct (scanner_step md props upper markup (fst c)) as [s|] eqn:E1; [left; eexists; left; eauto|].
  destruct (parser_step c) as [d|] eqn:E2; [left; eexists; right; eauto|].
  right. intros d [(s & E & _)|E]; congruence.
Qed.
Lemma sends_somewhere md props upper markup {A} (c : ssender * sproc A) : Acc (fun b a => sstep md props upper markup a b) c ->
  exists d, sreach md props upper markup c d /\ sstuck md props upper markup d.
Proof.
  induction 1 as [c _ IH]. destruct (sprogress md props upper markup c) as [(d & C)|S].
  - destruct (IH d C) as (e & R & S). exists e. split; [eapply sreach_step; eauto|exact S].
  - exists c. split; [apply sreach_refl|exact S].
Qed.

(* If no lookup precedes the last message, every schedule ends in the same way. *)
Theorem shared_schedules md props upper markup input ss fin n lv extra st tr tab :
  Scan md props upper markup input = Ok ss -> ScanFinal md props upper markup input = Ok fin ->
  exec (ResolveS tr tab n md) ss fin = Some (Ok lv, extra, st) ->
  let c0 := (start_shared md input, ResolveS tr tab n md) in
  Acc (fun b a => sstep md props upper markup a b) c0 /\
  (exists c, sreach md props upper markup c0 c /\ sstuck md props upper markup c) /\
  forall c, sreach md props upper markup c0 c -> sstuck md props upper markup c -> ended (Ok lv) extra c.
Proof.
  intros E1 E2 X c0. destruct (drains_start _ _ _ _ _ _ _ _ _ _ E1 E2) as (fin' & D & F).
  destruct (exec_rest _ _ fin fin' _ _ _ (eq_trans (f_equal at_rest (eq_sym F)) eq_refl) X) as (st' & X' & _).
  assert (W : will md props upper markup (Ok lv) extra st' c0) by (exists ss, fin'; split; [exact D|exact X']).
  assert (AC : Acc (fun b a => sstep md props upper markup a b) c0) by (eapply schedules_finite; exact W).
  split; [exact AC|]. split; [apply sends_somewhere, AC|]. intros c RE ST. eapply stuck_ended; [|exact ST]. eapply reach_will; eauto.
Qed.

(* ---- the parser on the list and the parser as a process ---- *)
Definition forget (p : pst scst) : pst unit := mkp (p_stack p) (p_sp p) (p_eof p) [] (p_depth p) tt.

Lemma read_loop_exec : forall n (p : pst scst) st,
  exec (read_loopS n (forget p)) (p_pipe p) st = (let (k, q) := read_loop n p in Some (Ok (k, forget q), p_pipe q, st)) /\
  p_store (snd (read_loop n p)) = p_store p.
Proof.
  induction n as [|n IH]; intros p st; cbn [read_loopS exec read_loop]; [auto|].
  assert (E : forall s l', exec (if clz s =? cNULL
        then SDone (Ok (O, mkp (p_stack p) (p_sp p) true [] (p_depth p) tt))
        else let% (k, p) := read_loopS n (mkp (p_stack p ++ [s]) (p_sp p) (p_eof p) [] (p_depth p) tt) in SDone (Ok (S k, p))) l' st =
      (let (k, q) := if clz s =? cNULL then (O, mkp (p_stack p) (p_sp p) true l' (p_depth p) (p_store p))
        else let (k, p) := read_loop n (mkp (p_stack p ++ [s]) (p_sp p) (p_eof p) l' (p_depth p) (p_store p)) in (S k, p) in
      Some (Ok (k, forget q), p_pipe q, st)) /\
      p_store (snd (if clz s =? cNULL then (O, mkp (p_stack p) (p_sp p) true l' (p_depth p) (p_store p))
        else let (k, p) := read_loop n (mkp (p_stack p ++ [s]) (p_sp p) (p_eof p) l' (p_depth p) (p_store p)) in (S k, p))) = p_store p).
  { intros s l'. destruct (clz s =? cNULL); [split; reflexivity|]. rewrite exec_sbind.
    destruct (IH (mkp (p_stack p ++ [s]) (p_sp p) (p_eof p) l' (p_depth p) (p_store p)) st) as [IH1 IH2].
    unfold forget in IH1 at 1. cbn [p_stack p_sp p_eof p_depth p_store p_pipe] in IH1. rewrite IH1.
    destruct (read_loop n _) as [k q]. cbn [snd p_store] in IH2 |- *. auto. }
  unfold forget at 1 2 3. cbn [p_pipe p_stack p_sp p_eof p_depth p_store]. destruct (p_pipe p) as [|m l]; cbn [receive]; apply E.
Qed.
Lemma read_exec n (p : pst scst) st :
  exec (readS n (forget p)) (p_pipe p) st = (let '(k, b, q) := read n p in Some (Ok (k, b, forget q), p_pipe q, st)) /\
  p_store (snd (read n p)) = p_store p.
Proof.
  unfold readS, read. change (p_eof (forget p)) with (p_eof p). destruct (_ || _); [auto|].
  destruct (read_loop_exec n p st) as [E1 E2]. rewrite exec_sbind, E1. destruct (read_loop n p) as [k q]. auto.
Qed.
Lemma fill_exec (p : pst scst) st : exec (fillS (forget p)) (p_pipe p) st = Some (Ok (forget (fill p)), p_pipe (fill p), st) /\ p_store (fill p) = p_store p.
Proof.
  unfold fillS, fill. change (p_sp (forget p)) with (p_sp p). change (p_stack (forget p)) with (p_stack p).
  destruct (read_exec (3 + p_sp p - length (p_stack p)) p st) as [E1 E2]. rewrite exec_sbind, E1.
  destruct (read _ p) as [[k b] q]. auto.
Qed.

Lemma reduce_forget (p : pst scst) n rhs start : reduce (forget p) n rhs start = match reduce p n rhs start with Some q => Some (forget q) | None => None end.
Proof.
  unfold reduce. cbn [forget p_stack p_sp]. destruct (overwrite _ _ _) as [st|]; [|reflexivity]. cbn [obind].
  match goal with |- (if ?b then _ else _) = _ => destruct b end; reflexivity.
Qed.
Lemma reduce_keeps (p q : pst scst) n rhs start : reduce p n rhs start = Some q -> p_pipe q = p_pipe p /\ p_store q = p_store p /\ p_sp q = p_sp p /\ p_eof q = p_eof p /\ p_depth q = p_depth p.
Proof.
  unfold reduce. destruct (overwrite _ _ _) as [st|]; [|discriminate]. cbn [obind].
  match goal with |- (if ?b then _ else _) = _ -> _ => destruct b end; [|discriminate]. intros E. injection E as <-. auto.
Qed.
Lemma apply_forget (p : pst scst) r start lo : apply_rule (forget p) r start lo = match apply_rule p r start lo with Ok q => Ok (forget q) | Panic => Panic | NoFuel => NoFuel end.
Proof.
  unfold apply_rule. change (tail_at (forget p)) with (tail_at p). destruct (tail_at p) as [m|]; [|reflexivity]. cbn [lift rbind].
  destruct (action r m) as [[[rhs jmp] nl]|]; [|reflexivity]. cbn [lift rbind]. rewrite reduce_forget.
  destruct (reduce p _ _ _); reflexivity.
Qed.
Lemma apply_keeps (p q : pst scst) r start lo : apply_rule p r start lo = Ok q -> p_pipe q = p_pipe p /\ p_store q = p_store p /\ p_depth q = p_depth p /\ (lo <= p_sp q)%nat.
Proof.
  unfold apply_rule. destruct (tail_at p) as [m|]; [|discriminate]. cbn [lift rbind].
  destruct (action r m) as [[[rhs jmp] nl]|]; [|discriminate]. cbn [lift rbind]. destruct (reduce p _ _ _) as [q0|] eqn:E; [|discriminate].
  cbn [lift rbind]. intros X. injection X as <-. destruct (reduce_keeps _ _ _ _ _ E) as (E1 & E2 & E3 & E4 & E5).
  unfold with_sp. cbn [p_pipe p_store p_depth p_sp]. repeat split; auto. unfold jump. lia.
Qed.

Lemma apply_exec (p q : pst scst) r start lo l st : apply_rule p r start lo = Ok q ->
  exec (apply_ruleS (forget p) r start lo) l st = Some (Ok (forget q), l, st).
Proof.
  unfold apply_rule, apply_ruleS. change (tail_at (forget p)) with (tail_at p). destruct (tail_at p) as [m|] eqn:ET; [|discriminate]. cbn [lift rbind].
  rewrite exec_sbind. cbn [exec]. destruct (action r m) as [[[rhs jmp] nl]|] eqn:EA; [|discriminate]. cbn [lift rbind]. rewrite exec_sbind. cbn [exec].
  rewrite reduce_forget, exec_sbind. cbn [exec]. destruct (reduce p _ _ _) as [q0|] eqn:ER; [|discriminate]. cbn [lift rbind]. intros X. injection X as <-.
  destruct nl; [|reflexivity]. rewrite exec_sbind. cbn [exec].
  assert (exists s, nth_error (p_stack (forget q0)) (p_sp (forget q0)) = Some s) as [s ->]; [|reflexivity].
  destruct (reduce_keeps _ _ _ _ _ ER) as (_ & _ & ESP & _). change (p_sp (forget q0)) with (p_sp q0). change (p_stack (forget q0)) with (p_stack q0). rewrite ESP.
  assert (RL : (1 <= length rhs)%nat).
  { destruct r; cbn [action] in EA; unfold squash, midswap, drop_third, first_two in EA;
      repeat match type of EA with
      | obind ?x _ = _ => destruct x as [?|] eqn:?; [cbn [obind] in EA|discriminate]
      | match ?x with [] => _ | _ => _ end = _ => destruct x as [|? ?]; [discriminate|]
      end; try (injection EA as <- <- <-; cbn [length]; lia); try discriminate.
    destruct (_ =? _) in EA; injection EA as <- <-; cbn [length]; [lia|]. destruct m as [|? ?]; [discriminate|cbn [length]; lia]. }
  clear -ER RL. unfold reduce in ER. destruct (overwrite _ _ _) as [s0|] eqn:EO; [|discriminate]. cbn [obind] in ER.
  match type of ER with (if ?b then _ else _) = _ => destruct b eqn:B end; [|discriminate]. injection ER as <-. cbn [with_stack p_stack].
  unfold overwrite in EO. destruct (_ <=? _)%nat eqn:L in EO; [|discriminate]. injection EO as <-. apply Nat.leb_le in L.
  assert (LN : (p_sp p < Nat.max start (p_sp p + length rhs))%nat) by lia.
  set (full := firstn (p_sp p) (p_stack p) ++ rhs ++ skipn (p_sp p + length rhs) (p_stack p)) in *.
  apply andb_prop in B as [B _]. apply andb_prop in B as [B _]. apply Nat.leb_le in B.
  destruct (nth_error (firstn (Nat.max start (p_sp p + length rhs)) full ++ _) (p_sp p)) as [s|] eqn:E; [eauto|].
  apply nth_error_None in E. rewrite app_length, firstn_length in E. lia.
Qed.

Section Run.
Context (tr : trie) (tab : list (option rule)).
Notation pass2 := (pass2 tr tab findBracket changeBracket).
Notation pass2S := (pass2S tr tab).
Notation pass1_loop := (pass1_loop tr tab findBracket changeBracket).
Notation parseIRS := (parseIRS tr tab findBracket changeBracket).
Notation pass1S := (pass1S tr tab).
Notation parseS := (parseS tr tab).

(* After the last message. *)
Lemma pass2_last : forall n start (p q : pst scst), p_pipe p = [] -> pass2 n start p = Ok q ->
  exec (pass2S n start (forget p)) [] (p_store p) = Some (Ok (forget q), [], p_store q) /\ p_pipe q = [].
Proof.
  induction n as [|n IH]; intros start p q EP; [discriminate|]. cbn [Resolver.pass2 Shared.pass2S].
  change (p_sp (forget p)) with (p_sp p). change (p_stack (forget p)) with (p_stack p).
  match goal with |- rbind (lift ?x) _ = _ -> _ => destruct x as [passed|] end; [|discriminate]. cbn [lift rbind].
  rewrite exec_sbind. cbn [exec].
  destruct (_ || _); [intros X; injection X as <-; auto|]. destruct (nth_error (p_stack p) (p_sp p)) as [s|] eqn:EN; [|discriminate]. cbn [lift rbind].
  rewrite exec_sbind. cbn [exec]. destruct (isbracket s).
  - destruct (performRuleN0 findBracket changeBracket p) as [[q1 j]|] eqn:E0; [|discriminate]. cbn [lift rbind]. intros X.
    assert (N : exec (performRuleN0S (forget p)) [] (p_store p) = Some (Ok (forget q1, j), [], p_store q1) /\ p_pipe q1 = []).
    { unfold performRuleN0 in E0. unfold performRuleN0S. rewrite EN in E0. change (p_sp (forget p)) with (p_sp p). change (p_stack (forget p)) with (p_stack p).
      rewrite EN. cbn [lift]. rewrite exec_sbind. cbn [exec obind] in E0 |- *.
      assert (ES : snd (findBracket (p_store p) s) = p_store p) by reflexivity.
      destruct (findBracket (p_store p) s) as [a b]. cbn [fst snd] in ES |- *. subst b. destruct (clz s =? cBRACKO).
      - destruct a as [c|].
        + destruct (has_match_after c s); [injection E0 as <- <-; cbn [exec]; split; [reflexivity|exact EP]|].
          destruct (has_opposite_after c s); injection E0 as <- <-; cbn [exec]; (split; [reflexivity|exact EP]).
        + injection E0 as <- <-. cbn [exec]. split; [reflexivity|exact EP].
      - injection E0 as <- <-. cbn [exec]. split; [reflexivity|exact EP]. }
    destruct N as [N1 N2]. rewrite exec_sbind, N1. exact (IH start (with_sp q1 (jump start (p_sp q1) j)) q N2 X).
  - rewrite exec_sbind. cbn [exec]. change (match_at tr tab (forget p) 2) with (match_at tr tab p 2). destruct (match_at tr tab p 2) as [[ru sh]| |]; [|discriminate|discriminate].
    cbn [rbind]. match goal with |- match ?x with _ => _ end = _ -> _ => destruct x as [r|] end.
    + destruct (pass r <? 2); [exact (IH start (with_sp p (S (p_sp p))) q EP)|]. rewrite apply_forget, exec_sbind. cbn [exec].
      destruct (apply_rule p r start 0) as [q1| |] eqn:EA; [|discriminate|discriminate]. cbn [rbind]. intros X.
      destruct (apply_keeps _ _ _ _ _ EA) as (K1 & K2 & _). rewrite <- K2. apply IH; [congruence|exact X].
    + exact (IH start (with_sp p (S (p_sp p))) q EP).
Qed.
Lemma pass2_pipe : forall n start (p q : pst scst), pass2 n start p = Ok q -> p_pipe q = p_pipe p.
Proof.
  induction n as [|n IH]; intros start p q; [discriminate|]. cbn [Resolver.pass2].
  match goal with |- rbind (lift ?x) _ = _ -> _ => destruct x as [passed|] end; [|discriminate]. cbn [lift rbind].
  destruct (_ || _); [intros X; injection X as <-; auto|]. destruct (nth_error (p_stack p) (p_sp p)) as [s|] eqn:EN; [|discriminate]. cbn [lift rbind].
  destruct (isbracket s).
  - destruct (performRuleN0 findBracket changeBracket p) as [[q1 j]|] eqn:E0; [|discriminate]. cbn [lift rbind]. intros X.
    apply IH in X. cbn [with_sp p_pipe] in X. rewrite X. clear X.
    unfold performRuleN0 in E0. rewrite EN in E0. cbn [obind] in E0. destruct (findBracket (p_store p) s) as [a b]. destruct (clz s =? cBRACKO).
    + destruct a as [c|]; [|injection E0 as <- <-; reflexivity].
      destruct (has_match_after c s); [injection E0 as <- <-; reflexivity|]. destruct (has_opposite_after c s); injection E0 as <- <-; reflexivity.
    + injection E0 as <- <-. reflexivity.
  - destruct (match_at tr tab p 2) as [[ru sh]| |]; [|discriminate|discriminate].
    cbn [rbind]. match goal with |- match ?x with _ => _ end = _ -> _ => destruct x as [r|] end.
    + destruct (pass r <? 2); [exact (IH start (with_sp p (S (p_sp p))) q)|].
      destruct (apply_rule p r start 0) as [q1| |] eqn:EA; [|discriminate|discriminate]. cbn [rbind]. intros X.
      destruct (apply_keeps _ _ _ _ _ EA) as (K1 & K2 & _). apply IH in X. congruence.
    + exact (IH start (with_sp p (S (p_sp p))) q).
Qed.
End Run.

(* ---- which classes occur ---- *)
Section Classes.
Context (G : Z -> Prop) (GL : G cL) (GR : G cR) (GEN : G cEN) (GAN : G cAN) (GNI : G cNI).
(* A class of G, and an embedding direction that is one. *)
Definition okS (s : scrap) : Prop := G (clz s) /\ (se s = cL \/ se s = cR).

Lemma okS_clz s c : G c -> okS s -> okS (with_clz s c).
Proof. intros H [_ E]. split; [exact H|exact E]. Qed.
Lemma action_okS r m rhs j nl : action r m = Some (rhs, j, nl) -> Forall okS m -> Forall okS rhs.
Proof.
  intros E F.
  assert (N : forall k x, nth_error m k = Some x -> okS x) by (intros k x H; rewrite Forall_forall in F; eapply F, nth_error_In, H).
  assert (SQ : forall c n k, G c -> squash c n k m = Some (rhs, j, nl) -> Forall okS rhs).
  { intros c n k GC H. unfold squash in H. destruct (nth_error m 0) as [a|] eqn:E0; [|discriminate]. cbn [obind] in H.
    destruct (nth_error m (n - 1)) as [b|]; [|discriminate]. injection H as <- <- <-. constructor; [|constructor].
    split; [exact GC|]. exact (proj2 (N _ _ E0)). }
  assert (MS : forall k, midswap cR k m = Some (rhs, j, nl) -> Forall okS rhs).
  { intros k H. unfold midswap in H. destruct m as [|a [|b t]]; try discriminate. injection H as <- <- <-.
    inversion F as [|? ? F1 F2]; subst. inversion F2 as [|? ? F3 F4]; subst. constructor; [exact F1|]. constructor; [apply okS_clz; auto|exact F4]. }
  assert (DT : forall c, G c -> drop_third c m = Some (rhs, j, nl) -> Forall okS rhs).
  { intros c GC H. unfold drop_third in H. destruct m as [|a [|b [|d t]]]; try discriminate. injection H as <- <- <-.
    inversion F as [|? ? F1 F2]; subst. inversion F2 as [|? ? F3 F4]; subst. constructor; [exact F1|]. constructor; [|constructor].
    split; [exact GC|exact (proj2 F3)]. }
  assert (FT : first_two m = Some (rhs, j, nl) -> Forall okS rhs).
  { intros H. unfold first_two in H. destruct m as [|a [|b [|d t]]]; try discriminate. injection H as <- <- <-.
    inversion F as [|? ? F1 F2]; subst. inversion F2 as [|? ? F3 F4]; subst. auto. }
  destruct r; cbn [action] in E; eauto.
  - destruct (nth_error m 0) as [a|] eqn:E0; [|discriminate]. cbn [obind] in E. destruct (_ =? _); injection E as <- <- <-; [|exact F].
    constructor; [|constructor]. apply okS_clz; [exact GL|]. eapply N, E0.
  - destruct (nth_error m 0) as [a|] eqn:E0; [|discriminate]. cbn [obind] in E. injection E as <- <- <-.
    constructor; [|constructor]. pose proof (N _ _ E0) as H. apply okS_clz; [|exact H]. destruct H as [_ [-> | ->]]; assumption.
Qed.

Lemma Forall_firstn {A} (P : A -> Prop) n l : Forall P l -> Forall P (firstn n l).
Proof. revert l. induction n as [|n IH]; intros [|x l] H; cbn [firstn]; auto. inversion H; subst. constructor; auto. Qed.
Lemma Forall_skipn {A} (P : A -> Prop) n l : Forall P l -> Forall P (skipn n l).
Proof. revert l. induction n as [|n IH]; intros [|x l] H; cbn [skipn]; auto. inversion H; subst. auto. Qed.
Lemma Forall_later {A} (P : A -> Prop) a b l : (a <= b)%nat -> Forall P (skipn a l) -> Forall P (skipn b l).
Proof.
  intros LE H. rewrite Forall_forall in *. intros x IN. apply H. clear H.
  revert a l LE IN. induction b as [|b IH]; intros a l LE IN; [assert (a = 0)%nat as -> by lia; exact IN|].
  destruct l as [|y l]; [rewrite skipn_nil in IN; contradiction|]. destruct a as [|a].
  - right. change (skipn (S b) (y :: l)) with (skipn b l) in IN. apply (IH 0%nat l); [lia|exact IN].
  - change (skipn (S b) (y :: l)) with (skipn b l) in IN. change (skipn (S a) (y :: l)) with (skipn a l). apply (IH a l); [lia|exact IN].
Qed.
Lemma skipn_app_le {A} n (a b : list A) : (n <= length a)%nat -> skipn n (a ++ b) = skipn n a ++ b.
Proof. intros H. rewrite skipn_app. replace (n - length a)%nat with 0%nat by lia. reflexivity. Qed.
Lemma Forall_skip_first {A} (P : A -> Prop) lo n l : Forall P (skipn lo l) -> Forall P (skipn lo (firstn n l)).
Proof. intros H. rewrite skipn_firstn_comm. apply Forall_firstn, H. Qed.

(* The stack from lo on, and what is still to be read. *)
Definition okp (lo : nat) (p : pst scst) : Prop := Forall okS (skipn lo (p_stack p)) /\ Forall okS (p_pipe p).

Lemma overwrite_okS lo st at_ rhs st' : (lo <= at_)%nat -> Forall okS (skipn lo st) -> Forall okS rhs -> overwrite st at_ rhs = Some st' ->
  Forall okS (skipn lo st').
Proof.
  intros LE F1 F2 E. unfold overwrite in E. destruct (_ <=? _)%nat eqn:L; [|discriminate]. apply Nat.leb_le in L. injection E as <-.
  rewrite skipn_app_le by (rewrite firstn_length; lia). apply Forall_app. split; [apply Forall_skip_first, F1|]. apply Forall_app.
  split; [exact F2|]. eapply Forall_later; [|exact F1]. lia.
Qed.
Lemma reduce_okp lo p n rhs start q : (lo <= start)%nat -> (lo <= p_sp p)%nat -> okp lo p -> Forall okS rhs ->
  reduce p n rhs start = Some q -> okp lo q.
Proof.
  intros L1 L2 [F1 F2] F3 E. destruct (reduce_keeps _ _ _ _ _ E) as (K1 & _). split; [|rewrite K1; exact F2].
  unfold reduce in E. destruct (overwrite _ _ _) as [s0|] eqn:EO; [|discriminate]. cbn [obind] in E.
  match type of E with (if ?b then _ else _) = _ => destruct b eqn:B end; [|discriminate]. injection E as <-. cbn [with_stack p_stack].
  pose proof (overwrite_okS lo _ _ _ _ L2 F1 F3 EO) as F.
  apply andb_prop in B as [B B3]. apply andb_prop in B as [B1 B2]. apply Nat.leb_le in B1.
  rewrite skipn_app_le by (rewrite firstn_length; lia). apply Forall_app. split; [apply Forall_skip_first, F|].
  eapply Forall_later; [|exact F]. lia.
Qed.
Lemma read_okp lo n p k b q : (lo <= length (p_stack p))%nat -> okp lo p -> G cNULL -> read n p = (k, b, q) -> okp lo q /\ (length (p_stack p) <= length (p_stack q))%nat /\ p_sp q = p_sp p /\ p_depth q = p_depth p.
Proof.
  unfold read. intros LE O GN. destruct (_ || _); [intros E; injection E as <- <- <-; auto|].
  assert (H : forall n p k q, (lo <= length (p_stack p))%nat -> okp lo p -> read_loop n p = (k, q) -> okp lo q /\ (length (p_stack p) <= length (p_stack q))%nat /\ p_sp q = p_sp p /\ p_depth q = p_depth p).
  { clear -GL. induction n as [|n IH]; intros p k q LE O E; cbn [read_loop] in E; [injection E as <- <-; auto|].
    assert (R : okS (fst (receive (p_pipe p))) /\ Forall okS (snd (receive (p_pipe p)))).
    { destruct O as [_ O]. destruct (p_pipe p) as [|m l]; cbn [receive fst snd]; [|inversion O; auto]. split; [|constructor].
      split; [exact GL|left; reflexivity]. }
    destruct (receive (p_pipe p)) as [s l]. cbn [fst snd] in R. destruct R as [R1 R2]. destruct (clz s =? cNULL).
    - injection E as <- <-. destruct O as [O _]. repeat split; auto.
    - destruct (read_loop n _) as [k' q'] eqn:EL. injection E as <- <-.
      destruct (IH (mkp (p_stack p ++ [s]) (p_sp p) (p_eof p) l (p_depth p) (p_store p)) k' q') as (A & B & C & D); [| |exact EL|].
      { cbn [p_stack]. rewrite app_length. lia. }
      { split; cbn [p_stack p_pipe]; [|exact R2]. rewrite skipn_app_le by lia. apply Forall_app. split; [exact (proj1 O)|auto]. }
      cbn [p_stack p_sp p_depth] in *. rewrite app_length in B. split; [exact A|]. split; [lia|]. auto. }
  destruct (read_loop n p) as [k' q'] eqn:EL. intros E. injection E as <- <- <-. eapply H; eauto.
Qed.
Lemma apply_okp lo p r start lo' q : (lo <= start)%nat -> (lo <= p_sp p)%nat -> okp lo p -> apply_rule p r start lo' = Ok q -> okp lo q.
Proof.
  intros L1 L2 O E. unfold apply_rule in E. destruct (tail_at p) as [m|] eqn:ET; [|discriminate]. cbn [lift rbind] in E.
  destruct (action r m) as [[[rhs jmp] nl]|] eqn:EA; [|discriminate]. cbn [lift rbind] in E.
  destruct (reduce p _ _ _) as [q0|] eqn:ER; [|discriminate]. cbn [lift rbind] in E. injection E as <-.
  change (okp lo q0). eapply reduce_okp; [exact L1|exact L2|exact O| |exact ER]. eapply action_okS; [exact EA|].
  unfold tail_at in ET. destruct (_ <=? _)%nat in ET; [|discriminate]. injection ET as <-. eapply Forall_later; [exact L2|exact (proj1 O)].
Qed.
Lemma fill_okp lo p : (lo <= length (p_stack p))%nat -> okp lo p -> G cNULL -> okp lo (fill p) /\ (length (p_stack p) <= length (p_stack (fill p)))%nat /\ p_sp (fill p) = p_sp p /\ p_depth (fill p) = p_depth p.
Proof. intros L O GN. unfold fill. destruct (read _ p) as [[k b] q] eqn:E. eapply read_okp; eauto. Qed.
End Classes.

(* ---- no brackets: nothing is looked up, except after rule W7, where the answer is not used ---- *)
Definition no_br (c : Z) : Prop := c <> cBRACKO /\ c <> cBRACKC.
Lemma no_br_L : no_br cL. Proof. split; discriminate. Qed.
Lemma no_br_R : no_br cR. Proof. split; discriminate. Qed.
Lemma no_br_EN : no_br cEN. Proof. split; discriminate. Qed.
Lemma no_br_AN : no_br cAN. Proof. split; discriminate. Qed.
Lemma no_br_NI : no_br cNI. Proof. split; discriminate. Qed.
Lemma no_br_NULL : no_br cNULL. Proof. split; discriminate. Qed.
Local Hint Resolve no_br_L no_br_R no_br_EN no_br_AN no_br_NI no_br_NULL : nobr.
Lemma no_br_is s : okS no_br s -> isbracket s = false.
Proof. intros [[A B] _]. unfold isbracket. apply Z.eqb_neq in A, B. rewrite A, B. reflexivity. Qed.

Section NoBrackets.
Context (tr : trie) (tab : list (option rule)).
Notation pass2 := (pass2 tr tab findBracket changeBracket).
Notation pass2S := (pass2S tr tab).
Notation pass1_loop := (pass1_loop tr tab findBracket changeBracket).
Notation parseIRS := (parseIRS tr tab findBracket changeBracket).
Notation pass1S := (pass1S tr tab).
Notation parseS := (parseS tr tab).
Notation ok := (okp no_br 0).

Lemma pass2_nb : forall n start p q l st, ok p -> pass2 n start p = Ok q ->
  exec (pass2S n start (forget p)) l st = Some (Ok (forget q), l, st) /\ ok q.
Proof.
  induction n as [|n IH]; intros start p q l st O; [discriminate|]. cbn [Resolver.pass2 Shared.pass2S].
  change (p_sp (forget p)) with (p_sp p). change (p_stack (forget p)) with (p_stack p).
  match goal with |- rbind (lift ?x) _ = _ -> _ => destruct x as [passed|] end; [|discriminate]. cbn [lift rbind].
  rewrite exec_sbind. cbn [exec].
  destruct (_ || _); [intros X; injection X as <-; auto|]. destruct (nth_error (p_stack p) (p_sp p)) as [s|] eqn:EN; [|discriminate]. cbn [lift rbind].
  rewrite exec_sbind. cbn [exec].
  assert (isbracket s = false) as ->.
  { apply no_br_is. destruct O as [O _]. rewrite Forall_forall in O. apply O. eapply nth_error_In, EN. }
  rewrite exec_sbind. cbn [exec]. change (match_at tr tab (forget p) 2) with (match_at tr tab p 2). destruct (match_at tr tab p 2) as [[ru sh]| |]; [|discriminate|discriminate].
  cbn [rbind]. match goal with |- match ?x with _ => _ end = _ -> _ => destruct x as [r|] end.
  - destruct (pass r <? 2); [exact (IH start (with_sp p (S (p_sp p))) q l st O)|]. rewrite apply_forget, exec_sbind. cbn [exec].
    destruct (apply_rule p r start 0) as [q1| |] eqn:EA; [|discriminate|discriminate]. cbn [rbind]. intros X.
    apply IH; [|exact X]. eapply apply_okp; [..|exact EA]; auto with nobr; lia.
  - exact (IH start (with_sp p (S (p_sp p))) q l st O).
Qed.

Lemma parse_nb : forall n,
  (forall start walk short p b q st, ok p -> pass1_loop n start walk short p = Ok (b, q) ->
    exec (pass1S n start walk short (forget p)) (p_pipe p) st = Some (Ok (b, forget q), p_pipe q, st) /\ ok q) /\
  (forall start p a k b q st, ok p -> parseIRS n start p = Ok (a, k, b, q) ->
    exec (parseS n start (forget p)) (p_pipe p) st = Some (Ok (a, k, b, forget q), p_pipe q, st) /\ ok q /\ Forall (okS no_br) a).
Proof.
  induction n as [|n [IH1 IH2]]; [split; discriminate|]. split.
  - intros start walk short p b q st O. cbn [Resolver.pass1_loop Shared.pass1S].
    fold (@Resolver.parseIRS tr tab scst findBracket changeBracket). fold (@Shared.parseS tr tab).
    rewrite exec_sbind. destruct (fill_exec p st) as [F1 _]. rewrite F1. cbn [exec]. cbv zeta.
    assert (OF : ok (fill p)) by (apply fill_okp; auto with nobr; lia).
    set (p1 := fill p) in *. clearbody p1. clear F1 O p.
    change (p_stack (forget p1)) with (p_stack p1). change (p_sp (forget p1)) with (p_sp p1). change (p_eof (forget p1)) with (p_eof p1).
    destruct (_ =? _)%nat.
    { destruct (p_eof p1); [|discriminate]. intros X. injection X as <- <-. auto. }
    destruct walk.
    + match goal with |- match ?x with _ => _ end = _ -> _ => destruct x as [r|] end.
      * rewrite exec_sbind. destruct (apply_rule p1 r start start) as [q'| |] eqn:EA; [|discriminate|discriminate]. cbn [rbind].
        rewrite (apply_exec _ _ _ _ _ _ _ EA). destruct (apply_keeps _ _ _ _ _ EA) as (K & _). rewrite <- K. intros X.
        apply IH1; [|exact X]. eapply apply_okp; [..|exact EA]; auto with nobr; lia.
      * rewrite exec_sbind. cbn [exec]. destruct (nth_error (p_stack p1) (p_sp p1)) as [s|]; [|discriminate]. cbn [lift rbind].
        destruct (clz s =? cPDI).
        { intros X. injection X as <- <-. split; [reflexivity|exact OF]. }
        destruct (isisolate s); [|exact (IH1 start false None (with_sp p1 (S (p_sp p1))) b q st OF)].
        rewrite exec_sbind. destruct (parseIRS n (p_sp p1) p1) as [[[[rhs runlen] ok'] q']| |] eqn:EI; [|discriminate|discriminate].
        destruct (IH2 _ _ _ _ _ _ st OF EI) as (E1 & O1 & O2). rewrite E1. cbn [rbind]. destruct ok'.
        -- rewrite exec_sbind. cbn [exec]. change (with_sp (forget q') (p_sp p1)) with (forget (with_sp q' (p_sp p1))). rewrite reduce_forget.
           destruct (reduce (with_sp q' (p_sp p1)) runlen rhs start) as [q''|] eqn:ER; [|discriminate]. cbn [lift rbind]. intros X.
           destruct (reduce_keeps _ _ _ _ _ ER) as (K & _). cbn [with_sp p_pipe] in K. rewrite <- K. apply IH1; [|exact X].
           eapply reduce_okp; [..|exact ER]; auto with nobr; lia.
        -- destruct (runlen =? 0)%nat; [discriminate|]. rewrite exec_sbind. cbn [exec]. destruct rhs as [|x t]; [discriminate|]. cbn [rbind].
           rewrite exec_sbind. cbn [exec]. change (with_sp (forget q') (p_sp p1)) with (forget (with_sp q' (p_sp p1))). rewrite reduce_forget.
           destruct (reduce (with_sp q' (p_sp p1)) runlen _ start) as [q''|] eqn:ER; [|discriminate]. cbn [lift rbind]. intros X.
           destruct (reduce_keeps _ _ _ _ _ ER) as (K & _). cbn [with_sp p_pipe] in K. rewrite <- K.
           refine (IH1 start false None (with_sp q'' (jump start (p_sp q'') (-2))) b q st _ X).
           refine (reduce_okp no_br 0 (with_sp q' (p_sp p1)) runlen _ start q'' (Nat.le_0_l _) (Nat.le_0_l _) O1 _ ER).
           constructor; [|exact (Forall_inv_tail O2)]. apply okS_clz; [auto with nobr|exact (Forall_inv O2)].
    + rewrite exec_sbind. cbn [exec]. change (match_at tr tab (forget p1) 0) with (match_at tr tab p1 0).
      destruct (match_at tr tab p1 0) as [[ru sh]| |]; [|discriminate|discriminate]. cbn [rbind].
      match goal with |- match ?x with _ => _ end = _ -> _ => destruct x as [r|] end.
      * rewrite exec_sbind. destruct (apply_rule p1 r start start) as [q'| |] eqn:EA; [|discriminate|discriminate]. cbn [rbind].
        rewrite (apply_exec _ _ _ _ _ _ _ EA). destruct (apply_keeps _ _ _ _ _ EA) as (K & _). rewrite <- K. intros X.
        apply IH1; [|exact X]. eapply apply_okp; [..|exact EA]; auto with nobr; lia.
      * apply IH1. exact OF.
  - intros start p a k b q st O. cbn [Resolver.parseIRS Shared.parseS].
    fold (@Resolver.pass1_loop tr tab scst findBracket changeBracket). fold (@Shared.pass1S tr tab).
    cbv zeta. set (p0 := with_sp (with_depth p (S (p_depth p))) (S start)).
    change (with_sp (with_depth (forget p) (S (p_depth (forget p)))) (S start)) with (forget p0). change (p_pipe p) with (p_pipe p0).
    assert (O0 : ok p0) by exact O. clearbody p0. clear O p.
    rewrite exec_sbind. destruct (read_exec 3 p0 st) as [E1 _]. rewrite E1. clear E1. destruct (read 3 p0) as [[k1 ok1] q1] eqn:ER.
    assert (O1 : ok q1) by (eapply read_okp; [..|exact ER]; auto with nobr; lia). clear ER O0 p0.
    destruct (if ok1 then pass1_loop n (S start) false None q1 else Ok (false, q1)) as [[b2 q2]| |] eqn:EB; [|discriminate|discriminate]. cbn [rbind].
    assert (E2 : exec (if ok1 then pass1S n (S start) false None (forget q1) else SDone (Ok (false, forget q1))) (p_pipe q1) st = Some (Ok (b2, forget q2), p_pipe q2, st) /\ ok q2).
    { destruct ok1; [exact (IH1 _ _ _ _ _ _ st O1 EB)|]. injection EB as <- <-. auto. }
    destruct E2 as [E2 O2]. rewrite exec_sbind, E2. cbn [exec]. change (p_depth (forget q2)) with (p_depth q2). clear E2 EB.
    destruct (if b2 || (p_depth q2 =? 1)%nat then pass2 n start (with_sp q2 start) else Ok q2) as [q3| |] eqn:EC; [|discriminate|discriminate]. cbn [rbind].
    assert (E3 : exec (if b2 || (p_depth q2 =? 1)%nat then pass2S n start (with_sp (forget q2) start) else SDone (Ok (forget q2))) (p_pipe q2) st = Some (Ok (forget q3), p_pipe q3, st) /\ ok q3).
    { destruct (_ || _).
      - rewrite (pass2_pipe _ _ _ _ _ _ EC). cbn [with_sp p_pipe].
        exact (pass2_nb n start (with_sp q2 start) q3 (p_pipe q2) st O2 EC).
      - injection EC as <-. auto. }
    destruct E3 as [E3 O3]. rewrite exec_sbind, E3, exec_sbind. cbn [exec].
    change (p_depth (forget q3)) with (p_depth q3). change (p_stack (forget q3)) with (p_stack q3). change (p_sp (forget q3)) with (p_sp q3).
    match goal with |- rbind ?x _ = _ -> _ => destruct x as [result| |] eqn:EX end; [|discriminate|discriminate]. cbn [rbind]. intros X. injection X as <- <- <- <-.
    split; [reflexivity|]. split; [exact O3|]. destruct (b2 && _).
    + destruct (nth_error _ start) as [f|]; [|discriminate]. cbn [lift rbind] in EX. destruct (nth_error _ _) as [e|]; [|discriminate].
      cbn [lift rbind] in EX. injection EX as <-. constructor; [|constructor]. split; [cbn [clz]; auto with nobr|left; reflexivity].
    + injection EX as <-. apply Forall_skipn. exact (proj1 O3).
Qed.

Theorem resolve_nb n md ss fin lv extra : Forall (okS no_br) ss -> ResolveLevels tr tab findBracket changeBracket n md ss fin = Ok (lv, extra) ->
  forall st, exec (ResolveS tr tab n md) ss st = Some (Ok lv, extra, st).
Proof.
  intros F E st. unfold ResolveLevels in E. unfold ResolveS. cbv zeta in *. set (i := initialOuterScrap md true) in *.
  destruct (parseIRS n 0 (mkp [i] 0 false ss 0 fin)) as [[[[runs k] b] q]| |] eqn:EP; [|discriminate|discriminate]. cbn [rbind] in E.
  assert (O : ok (mkp [i] 0 false ss 0 fin)).
  { split; cbn [p_stack p_pipe]; [|exact F]. change (skipn 0 [i]) with [i]. constructor; [|constructor]. subst i. unfold initialOuterScrap.
    destruct (m_r2l md); (split; [split; discriminate|]); [right|left]; reflexivity. }
  destruct (proj2 (parse_nb n) _ _ _ _ _ _ st O EP) as (E1 & _ & _). unfold forget in E1 at 1. cbn [p_stack p_sp p_eof p_depth p_pipe] in E1.
  rewrite exec_sbind, E1, exec_sbind. cbn [exec]. destruct (zget runs (zlen runs - 1)) as [e|]; [|discriminate]. cbn [lift rbind] in E |- *.
  injection E as <- <-. reflexivity.
Qed.
End NoBrackets.

(* ---- no isolates: brackets are looked up only at the end ---- *)
Definition no_iso (c : Z) : Prop := c <> cLRI /\ c <> cRLI /\ c <> cFSI /\ c <> cPDI.
Lemma no_iso_L : no_iso cL. Proof. repeat split; discriminate. Qed.
Lemma no_iso_R : no_iso cR. Proof. repeat split; discriminate. Qed.
Lemma no_iso_EN : no_iso cEN. Proof. repeat split; discriminate. Qed.
Lemma no_iso_AN : no_iso cAN. Proof. repeat split; discriminate. Qed.
Lemma no_iso_NI : no_iso cNI. Proof. repeat split; discriminate. Qed.
Lemma no_iso_NULL : no_iso cNULL. Proof. repeat split; discriminate. Qed.
Local Hint Resolve no_iso_L no_iso_R no_iso_EN no_iso_AN no_iso_NI no_iso_NULL : noiso.
Lemma no_iso_is s : okS no_iso s -> isisolate s = false.
Proof. intros [(A & B & C & D) _]. unfold isisolate. apply Z.eqb_neq in A, B, C, D. rewrite A, B, C, D. reflexivity. Qed.

Section NoIsolates.
Context (tr : trie) (tab : list (option rule)).
Notation pass2 := (pass2 tr tab findBracket changeBracket).
Notation pass2S := (pass2S tr tab).
Notation pass1_loop := (pass1_loop tr tab findBracket changeBracket).
Notation parseIRS := (parseIRS tr tab findBracket changeBracket).
Notation pass1S := (pass1S tr tab).
Notation parseS := (parseS tr tab).
Notation ok := (okp no_iso 1).

Lemma apply_stack p r start lo q : apply_rule p r start lo = Ok q -> (1 <= p_sp p)%nat -> (1 <= length (p_stack p))%nat -> (1 <= length (p_stack (q : pst scst)))%nat.
Proof.
  intros E L1 L2. unfold apply_rule in E. destruct (tail_at p) as [m|] eqn:ET; [|discriminate]. cbn [lift rbind] in E.
  destruct (action r m) as [[[rhs jmp] nl]|] eqn:EA; [|discriminate]. cbn [lift rbind] in E.
  destruct (reduce p _ _ _) as [q0|] eqn:ER; [|discriminate]. cbn [lift rbind] in E. injection E as <-. cbn [with_sp p_stack].
  unfold reduce in ER. destruct (overwrite _ _ _) as [s0|] eqn:EO; [|discriminate]. cbn [obind] in ER.
  match type of ER with (if ?b then _ else _) = _ => destruct b eqn:B end; [|discriminate]. injection ER as <-. cbn [with_stack p_stack].
  apply andb_prop in B as [B _]. apply andb_prop in B as [B _]. apply Nat.leb_le in B. rewrite app_length, firstn_length. lia.
Qed.

Lemma pass1_ni : forall n walk short p b q st, ok p -> (1 <= p_sp p)%nat -> (1 <= length (p_stack p))%nat -> pass1_loop n 1 walk short p = Ok (b, q) ->
  exec (pass1S n 1 walk short (forget p)) (p_pipe p) st = Some (Ok (b, forget q), p_pipe q, st) /\ b = false /\ p_store q = p_store p /\ p_depth q = p_depth p.
Proof.
  induction n as [|n IH]; [discriminate|]. intros walk short p b q st O L1 L2. cbn [Resolver.pass1_loop Shared.pass1S].
  fold (@Resolver.parseIRS tr tab scst findBracket changeBracket). fold (@Shared.parseS tr tab).
  rewrite exec_sbind. destruct (fill_exec p st) as [F1 F2]. rewrite F1. cbn [exec]. cbv zeta. rewrite <- F2.
  destruct (fill_okp no_iso no_iso_L 1 p L2 O no_iso_NULL) as (OF & L3 & L4 & L5). rewrite <- L5.
  assert (L6 : (1 <= length (p_stack (fill p)))%nat) by lia. rewrite <- L4 in L1.
  set (p1 := fill p) in *. clearbody p1. clear F1 F2 O L2 L3 L4 L5 p.
  change (p_stack (forget p1)) with (p_stack p1). change (p_sp (forget p1)) with (p_sp p1). change (p_eof (forget p1)) with (p_eof p1).
  destruct (_ =? _)%nat.
  { destruct (p_eof p1); [|discriminate]. intros X. injection X as <- <-. auto. }
  assert (AP : forall r, (let* p := apply_rule p1 r 1 1 in pass1_loop n 1 false None p) = Ok (b, q) ->
    exec (let% p := apply_ruleS (forget p1) r 1 1 in pass1S n 1 false None p) (p_pipe p1) st = Some (Ok (b, forget q), p_pipe q, st) /\
    b = false /\ p_store q = p_store p1 /\ p_depth q = p_depth p1).
  { intros r X. rewrite exec_sbind. destruct (apply_rule p1 r 1 1) as [q'| |] eqn:EA; [|discriminate|discriminate]. cbn [rbind] in X.
    rewrite (apply_exec _ _ _ _ _ _ _ EA). destruct (apply_keeps _ _ _ _ _ EA) as (K1 & K2 & K3 & K4). rewrite <- K1, <- K2, <- K3.
    apply IH; [|exact K4| |exact X].
    - eapply apply_okp; [..|exact EA]; auto with noiso; lia.
    - eapply apply_stack; eauto. }
  destruct walk.
  - match goal with |- match ?x with _ => _ end = _ -> _ => destruct x as [r|] end; [apply AP|].
    rewrite exec_sbind. cbn [exec]. destruct (nth_error (p_stack p1) (p_sp p1)) as [s|] eqn:EN; [|discriminate]. cbn [lift rbind].
    assert (OS : okS no_iso s).
    { destruct OF as [OF _]. rewrite Forall_forall in OF. apply OF. apply nth_error_In with (p_sp p1 - 1)%nat.
      rewrite <- EN. clear -L1. destruct (p_sp p1) as [|k]; [lia|]. replace (S k - 1)%nat with k by lia. destruct (p_stack p1) as [|x t]; [destruct k; reflexivity|reflexivity]. }
    assert (clz s =? cPDI = false) as -> by (destruct OS as [(_ & _ & _ & H) _]; apply Z.eqb_neq, H).
    rewrite (no_iso_is s OS). intros X.
    exact (IH false None (with_sp p1 (S (p_sp p1))) b q st OF ltac:(cbn [with_sp p_sp]; lia) L6 X).
  - rewrite exec_sbind. cbn [exec]. change (match_at tr tab (forget p1) 0) with (match_at tr tab p1 0).
    destruct (match_at tr tab p1 0) as [[ru sh]| |]; [|discriminate|discriminate]. cbn [rbind].
    match goal with |- match ?x with _ => _ end = _ -> _ => destruct x as [r|] end; [apply AP|]. apply IH; auto.
Qed.

Theorem resolve_ni n md ss fin lv : Forall (okS no_iso) ss -> ResolveLevels tr tab findBracket changeBracket n md ss fin = Ok (lv, []) ->
  exists st, exec (ResolveS tr tab n md) ss fin = Some (Ok lv, [], st).
Proof.
  intros F E. unfold ResolveLevels in E. unfold ResolveS. cbv zeta in *. set (i := initialOuterScrap md true) in *.
  destruct n as [|n]; [discriminate|]. rewrite parseIRS_eq in E. cbv zeta in E. cbn [Shared.parseS].
  fold (@Shared.pass1S tr tab). rewrite exec_sbind.
  set (p0 := with_sp (with_depth (mkp [i] 0 false ss 0 fin) (S (p_depth (mkp [i] 0 false ss 0 fin)))) 1) in *.
  cbv zeta. change (with_sp (with_depth (mkp [i] 0 false [] 0 tt) (S (p_depth (mkp [i] 0 false [] 0 tt)))) 1) with (forget p0). change ss with (p_pipe p0).
  rewrite exec_sbind. destruct (read_exec 3 p0 fin) as [E1 E2]. rewrite E1. clear E1. destruct (read 3 p0) as [[k1 ok1] q1] eqn:ER.
  assert (O0 : ok p0) by (split; [apply Forall_nil|exact F]).
  destruct (read_okp no_iso no_iso_L 1 3 p0 k1 ok1 q1 (le_n _) O0 no_iso_NULL ER) as (O1 & L1 & L2 & L3). cbn [snd] in E2.
  change (p_sp p0) with 1%nat in L2. change (p_depth p0) with 1%nat in L3. change (length (p_stack p0)) with 1%nat in L1. change (p_store p0) with fin in E2. clearbody p0.
  destruct (if ok1 then pass1_loop n 1 false None q1 else Ok (false, q1)) as [[b2 q2]| |] eqn:EB; [|discriminate|discriminate]. cbn [rbind] in E.
  assert (E3 : exec (if ok1 then pass1S n 1 false None (forget q1) else SDone (Ok (false, forget q1))) (p_pipe q1) fin = Some (Ok (b2, forget q2), p_pipe q2, fin) /\ b2 = false /\ p_store q2 = fin /\ p_depth q2 = 1%nat).
  { destruct ok1.
    - destruct (pass1_ni n false None q1 b2 q2 fin O1 ltac:(lia) L1 EB) as (H1 & H2 & H3 & H4). rewrite H3, H4. auto.
    - injection EB as <- <-. auto. }
  destruct E3 as (E3 & -> & E4 & E5). rewrite exec_sbind, E3. cbn [exec]. change (p_depth (forget q2)) with (p_depth q2). rewrite E5 in E |- *.
  cbn [orb Nat.eqb] in E |- *.
  destruct (pass2 n 0 (with_sp q2 0)) as [q3| |] eqn:EC; [|discriminate|discriminate]. cbn [rbind andb] in E |- *.
  destruct (zget _ _) as [e|] eqn:EZ; [|discriminate]. cbn [lift rbind with_depth p_pipe] in E. injection E as <- E.
  pose proof (pass2_pipe _ _ _ _ _ _ EC) as EP. rewrite E in EP. cbn [with_sp p_pipe] in EP. symmetry in EP. rewrite EP.
  destruct (pass2_last tr tab n 0 (with_sp q2 0) q3 EP EC) as [E6 _]. change (forget (with_sp q2 0)) with (with_sp (forget q2) 0) in E6.
  change (p_store (with_sp q2 0)) with (p_store q2) in E6. rewrite E4 in E6.
  rewrite exec_sbind, E6. cbn [exec]. rewrite exec_sbind. cbn [exec]. change (p_stack (forget q3)) with (p_stack q3). rewrite exec_sbind. cbn [exec]. rewrite EZ.
  cbn [lift exec]. eexists. reflexivity.
Qed.
End NoIsolates.

(* ---- the classes the scanner sends ---- *)
Section Sent.
Context (md : mode) (props : Z -> Z * Z) (upper : Z -> bool) (markup : option (Z -> Z)).
Context (G : Z -> Prop) (GL : G cL) (GR : G cR) (GEN : G cEN) (GAN : G cAN) (GNI : G cNI) (GN : G cNULL).
Context (GM : markup = None \/ (G cLRI /\ G cRLI /\ G cPDI)).
Notation scan_head := (scan_head md props upper markup).
Notation scanner_step := (scanner_step md props upper markup).

Definition strong_dir (d : dirctx) : Prop := edir d = cL \/ edir d = cR.
(* What is still to be read, and the contexts kept. *)
Definition fit_st (st : scst) : Prop := Forall (fun x => G (eff md props upper (fst x))) (s_rest st) /\ Forall strong_dir (s_ctx st).
Definition fit_cont (k : cont) : Prop :=
  match k with CEnd => True | CPrep _ la _ cur _ => G (clz la) /\ okS G cur | CScan cur _ => okS G cur end.
Definition fits (s : ssender) : Prop :=
  fit_st (memory s) /\ match s with
                       | Running _ cur _ => okS G cur
                       | Sending _ q k => Forall (okS G) q /\ fit_cont k
                       | _ => True
                       end.

Lemma fit_next st pos inp st' : nextRune md props markup st pos = (inp, st') -> fit_st st ->
  fit_st st' /\ table st' = table st /\ match inp with Some (r, len, c) => G (test_class md upper r c) | None => True end.
Proof.
  intros E [F1 F2].
  assert (RD : forall inp st', read_rune md props st = (inp, st') -> fit_st st' /\ table st' = table st /\ match inp with Some (r, len, c) => G (test_class md upper r c) | None => True end).
  { clear E inp st'. intros inp st' E. unfold read_rune in E. destruct (s_rest st) as [|[r len] rest] eqn:ER; [injection E as <- <-; split; [split; [rewrite ER; constructor|exact F2]|auto]|].
    pose proof (Forall_inv F1) as H1. pose proof (Forall_inv_tail F1) as H2. cbn [fst] in H1. unfold eff in H1.
    destruct (props r) as [c b]. destruct (c =? cB) eqn:EB.
    - destruct (m_ignore md) eqn:MI; cbn [andb negb] in E; injection E as <- <-; (split; [split; [exact H2|exact F2]|]); (split; [reflexivity|]); auto.
    - cbn [andb] in E. injection E as <- <-. split; [split; [exact H2|exact F2]|]. auto. }
  unfold nextRune in E. destruct markup as [f|] eqn:EM; [|apply RD, E].
  destruct GM as [GM0|(M1 & M2 & M3)]; [discriminate|].
  assert (TC : forall c, G c -> forall x, G (test_class md upper x c)).
  { intros c GC x. unfold test_class. destruct (m_test md); [|exact GC]. destruct (upper x); [exact GR|]. destruct (x =? 62); [exact M1|].
    destruct (x =? 60); [exact M2|]. destruct (x =? 61); [exact M3|exact GC]. }
  assert (MB : forall m, G (markupToBidi m)).
  { intros m. unfold markupToBidi. destruct (_ || _); [exact M1|]. destruct (_ || _); [exact M2|]. destruct (_ =? _); [exact M3|exact GL]. }
  destruct (0 <? s_mk st); [injection E as <- <-; split; [split; assumption|]; split; [reflexivity|]; apply TC, MB|].
  destruct (_ && _); [|apply RD, E].
  destruct (0 <? Z.land _ _); injection E as <- <-; (split; [split; assumption|]); (split; [reflexivity|]); apply TC; auto.
Qed.

Lemma fit_W1to3 c cur : G c -> G (clz cur) -> G (applyRulesW1to3 c cur).
Proof.
  intros H1 H2. unfold applyRulesW1to3. repeat match goal with |- G (if ?b then _ else _) => destruct b end; auto.
Qed.
Lemma switch_fits st s st' : handleIsolatingRunSwitch st s = Some st' -> s_rest st' = s_rest st /\ s_ctx st' = s_ctx st.
Proof.
  unfold handleIsolatingRunSwitch. destruct (clz s =? cPDI).
  - destruct (s_stack st) as [|x t]; [intros E; injection E as <-; auto|]. destruct (nth_error _ _); [|discriminate]. cbn [obind].
    destruct (match removelast (x :: t) with [] => _ | _ => _ end); [|discriminate]. intros E. injection E as <-. auto.
  - destruct (irs_find _ _); [|discriminate]. cbn [obind]. destruct (last_irs _ _ _); [|discriminate]. cbn [obind].
    destruct (nth_error _ _); [|discriminate]. intros E. injection E as <-. auto.
Qed.

Lemma head_fits st cur al st' q k : fit_st st -> okS G cur -> scan_head st cur al = Some (st', q, k) ->
  fit_st st' /\ Forall (okS G) q /\ fit_cont k /\ (isisolate cur = false -> table st' = table st).
Proof.
  intros F O E. unfold Shared.scan_head in E. destruct (nextRune md props markup st (sr cur)) as [inp st1] eqn:EN.
  destruct (fit_next _ _ _ _ EN F) as (F1 & T1 & GI). destruct inp as [[[r len] c]|].
  - cbv zeta in E. set (la := mks (applyRulesW1to3 (test_class md upper r c) cur) (sr cur) (u32 (sr cur + len)) dc0 []) in *.
    assert (GLA : G (clz la)) by (apply fit_W1to3; [exact GI|exact (proj1 O)]).
    destruct (finished cur la).
    + destruct (if negb (clz cur =? cNULL) && isisolate cur then handleIsolatingRunSwitch st1 cur else Some st1) as [st2|] eqn:E2; [|discriminate].
      cbn [obind] in E. injection E as <- <- <-.
      assert (F2 : fit_st st2 /\ (isisolate cur = false -> table st2 = table st)).
      { destruct (isisolate cur); [|rewrite andb_false_r in E2; injection E2 as <-; auto]. destruct (negb _); [|injection E2 as <-; split; [auto|discriminate]].
        cbn [andb] in E2. destruct (switch_fits _ _ _ E2) as [A B]. split; [|discriminate]. unfold fit_st. rewrite A, B. exact F1. }
      destruct F2 as [F2 T2]. split; [exact F2|]. split; [destruct (clz cur =? cNULL); auto|]. split; [split; assumption|exact T2].
    + injection E as <- <- <-. split; [exact F1|]. split; [constructor|]. split; [|auto]. split; [exact (proj1 O)|exact (proj2 O)].
  - destruct (if isisolate cur then handleIsolatingRunSwitch st1 cur else Some st1) as [st2|] eqn:E2; [|discriminate].
    cbn [obind] in E. injection E as <- <- <-.
    assert (F2 : fit_st st2 /\ (isisolate cur = false -> table st2 = table st)).
    { destruct (isisolate cur); [|injection E2 as <-; auto]. destruct (switch_fits _ _ _ E2) as [A B]. split; [|discriminate]. unfold fit_st. rewrite A, B. exact F1. }
    destruct F2 as [F2 T2]. split; [exact F2|]. split; [|split; [exact Logic.I|exact T2]].
    constructor; [exact O|]. constructor; [|constructor]. split; [exact GN|left; reflexivity].
Qed.

Lemma set_strong_dir d c a : strong_dir d -> strong_dir (set_strong d c a).
Proof. unfold set_strong, strong_dir. intros H. repeat match goal with |- context [if ?b then _ else _] => destruct b end; exact H. Qed.
Lemma inherit_okS la cur al : G (clz la) -> strong_dir (sctx cur) -> okS G (inheritStrongTypes la cur al).
Proof.
  intros H1 H2. split; [exact H1|]. unfold inheritStrongTypes. change (strong_dir (sctx (with_ctx la
    (if clz la =? cLRI then mkdc cL (strong (sctx cur)) (odist (sctx cur)) (mpos (sctx cur))
     else if clz la =? cRLI then mkdc cR (strong (sctx cur)) (odist (sctx cur)) (mpos (sctx cur))
     else
       let d := if 0 <=? al then set_strong (sctx cur) cAL (u32 al) else sctx cur in
       if (clz cur =? cL) || (clz cur =? cLRI) then set_strong d cL (sl cur)
       else if (clz cur =? cR) || (clz cur =? cRLI) then set_strong d cR (sl cur)
       else if clz cur =? cAL then set_strong d cAL (sl cur) else d)))). cbn [with_ctx sctx].
  destruct (clz la =? cLRI); [left; reflexivity|]. destruct (clz la =? cRLI); [right; reflexivity|].
  assert (H3 : strong_dir (if 0 <=? al then set_strong (sctx cur) cAL (u32 al) else sctx cur)) by (destruct (0 <=? al); [apply set_strong_dir|]; exact H2).
  cbv zeta. destruct (_ || _); [apply set_strong_dir, H3|]. destruct (_ || _); [apply set_strong_dir, H3|]. destruct (_ =? _); [apply set_strong_dir, H3|exact H3].
Qed.
Lemma nset_map {A B} (f : A -> B) l n a b : nth_error l n = Some b -> f a = f b -> map f (nset l n a) = map f l.
Proof.
  revert n. induction l as [|x l IH]; intros [|n] E H; try discriminate; cbn.
  - injection E as <-. rewrite H. reflexivity.
  - f_equal. apply IH; assumption.
Qed.
Lemma prepare_fits st r s st' : prepareRuleBD16 st r s = Some st' -> s_rest st' = s_rest st /\ s_ctx st' = s_ctx st /\ table st' = table st.
Proof.
  unfold prepareRuleBD16. destruct (negb (isbracket s)); [intros E; injection E as <-; auto|].
  destruct (nth_error (s_hs st) (s_bd st)) as [h|] eqn:EH; [|discriminate]. cbn [obind]. intros E. injection E as <-. cbn [s_rest s_ctx]. split; [reflexivity|]. split; [reflexivity|].
  unfold table. cbn [s_irs s_hs]. f_equal. eapply nset_map; [exact EH|reflexivity].
Qed.
Lemma tail_fits st r la isAL cur al st' cur' al' : fit_st st -> G (clz la) -> okS G cur -> scan_tail st r la isAL cur al = Some (st', cur', al') ->
  fit_st st' /\ okS G cur' /\ table st' = table st.
Proof.
  intros F GLA O E. unfold scan_tail in E.
  match type of E with (let '(_, _) := ?x in _) = _ => destruct x as [st1 cur1] eqn:EX end.
  assert (H : fit_st st1 /\ strong_dir (sctx cur1) /\ table st1 = table st).
  { destruct (isisolate la && _).
    - injection EX as <- <-. destruct F as [F1 F2]. split; [split; [exact F1|]|split; [exact (proj2 O)|reflexivity]].
      cbn [with_ctxs s_ctx]. apply Forall_app. split; [exact F2|]. constructor; [exact (proj2 O)|constructor].
    - destruct (s_ctx st) as [|x t] eqn:ES; [injection EX as <- <-; split; [exact F|]; split; [exact (proj2 O)|reflexivity]|].
      destruct (clz cur =? cPDI); injection EX as <- <-; [|split; [exact F|]; split; [exact (proj2 O)|reflexivity]].
      destruct F as [F1 F2]. rewrite ES in F2. rewrite Forall_forall in F2.
      split; [split; [exact F1|]|].
      + cbn [with_ctxs s_ctx]. apply Forall_forall. intros y IN. apply F2. exact (in_removelast (x :: t) y IN).
      + split; [|reflexivity]. cbn [with_ctx sctx]. apply F2. change (In (last (x :: t) x) (x :: t)). apply in_last. discriminate. }
  destruct H as (F1 & SD & T). destruct (prepareRuleBD16 st1 r _) as [st2|] eqn:EP; [|discriminate]. cbn [obind] in E. injection E as <- <- <-.
  destruct (prepare_fits _ _ _ _ EP) as (A & B & C). split; [unfold fit_st; rewrite A, B; exact F1|]. split; [apply inherit_okS; assumption|congruence].
Qed.

Lemma step_fits s s' : scanner_step s = Some s' -> fits s -> fits s' /\
  (match s with Running _ cur _ => isisolate cur = false | _ => True end -> table (memory s') = table (memory s)).
Proof.
  intros E [F O]. destruct s as [st cur al|st [|m q] [|r la isAL cur al|cur al]|st|st]; cbn [Shared.scanner_step] in E; try discriminate; cbn [memory] in F.
  - destruct (scan_head st cur al) as [[[st' q] k]|] eqn:EH; injection E as <-; [|split; [split; [exact F|exact Logic.I]|reflexivity]].
    destruct (head_fits _ _ _ _ _ _ F O EH) as (F1 & F2 & F3 & F4). split; [split; [exact F1|split; assumption]|exact F4].
  - injection E as <-. split; [split; [exact F|exact Logic.I]|reflexivity].
  - destruct O as [_ [O1 O2]]. destruct (scan_tail st r la isAL cur al) as [[[st' cur'] al']|] eqn:ET; injection E as <-; [|split; [split; [exact F|exact Logic.I]|reflexivity]].
    destruct (tail_fits _ _ _ _ _ _ _ _ _ F O1 O2 ET) as (F1 & F2 & F3). split; [split; assumption|auto].
  - destruct O as [_ O]. injection E as <-. split; [split; assumption|reflexivity].
Qed.
Lemma change_fits st x : fit_st st -> fit_st (changeBracket st x).
Proof. intros [F1 F2]. unfold changeBracket. destruct (do i <- _; _) as [[i h]|]; split; assumption. Qed.
Lemma parser_fits {A} s (p : sproc A) d : parser_step (s, p) = Some d -> fits s -> fits (fst d).
Proof.
  intros E F.
  assert (H : forall x, fits (with_memory s (changeBracket (memory s) x))).
  { intros x. destruct F as [F O]. destruct s; cbn [with_memory memory] in *; (split; [apply change_fits; exact F|exact O]). }
  destruct p as [a|p|k|x k|x p|x p]; cbn [parser_step] in E.
  - destruct s as [? ? ?|? [|? ?] ?|?|?]; discriminate.
  - destruct s as [? ? ?|? [|? ?] ?|?|?]; injection E as <-; exact F.
  - destruct s as [? ? ?|st [|m q] k'|?|?]; try discriminate; injection E as <-; [|exact F].
    destruct F as [F [O1 O2]]. split; [exact F|]. split; [exact (Forall_inv_tail O1)|exact O2].
  - destruct s as [? ? ?|? [|? ?] ?|?|?]; injection E as <-; exact F.
  - assert (d = (with_memory s (changeBracket (memory s) x), p)) as -> by (destruct s as [? ? ?|? [|? ?] ?|?|?]; injection E as <-; reflexivity). apply H.
  - destruct s as [? ? ?|? [|? ?] ?|?|?]; injection E as <-; exact F.
Qed.
Lemma reach_fits {A} (c d : ssender * sproc A) : sreach md props upper markup c d -> fits (fst c) -> fits (fst d).
Proof.
  induction 1 as [|a b c ST _ IH]; [auto|]. intros F. apply IH. destruct ST as [(s & E & ->)|E]; [exact (proj1 (step_fits _ _ E F))|].
  destruct a as [s p]. eapply parser_fits; eauto.
Qed.
Lemma drains_okS s l fin : drains md props upper markup s l fin -> fits s -> Forall (okS G) l.
Proof.
  induction 1 as [st|st m q k l fin D IH|s s' l fin E D IH]; intros F; [constructor| |].
  - destruct F as [F [O1 O2]]. constructor; [exact (Forall_inv O1)|]. apply IH. split; [exact F|]. split; [exact (Forall_inv_tail O1)|exact O2].
  - apply IH. exact (proj1 (step_fits _ _ E F)).
Qed.
Lemma start_fits input : Forall (fun x => G (eff md props upper (fst x))) input -> fits (start_shared md input).
Proof.
  intros F. split; [split; [exact F|constructor]|]. cbn [start_shared]. unfold start_shared, initialOuterScrap. destruct (m_r2l md); (split; [exact GN|]); [right|left]; reflexivity.
Qed.
Lemma sent_okS input ss fin : Scan md props upper markup input = Ok ss -> ScanFinal md props upper markup input = Ok fin ->
  Forall (fun x => G (eff md props upper (fst x))) input -> Forall (okS G) ss.
Proof.
  intros E1 E2 F. destruct (drains_start _ _ _ _ _ _ _ _ _ _ E1 E2) as (fin' & D & _). eapply drains_okS; [exact D|]. apply start_fits, F.
Qed.
End Sent.

(* Without isolates the scanner never writes what the parser may read at the same time. *)
Theorem never_racing md props upper input {A} (p : sproc A) c :
  Forall (fun x => no_iso (eff md props upper (fst x))) input ->
  sreach md props upper None (start_shared md input, p) c -> ~ racing md props upper None c.
Proof.
  intros F R [(s' & E & T) _]. apply T.
  assert (FT : fits md props upper no_iso (fst c)).
  { eapply reach_fits; [..|exact R|]; auto with noiso. apply start_fits; auto with noiso. }
  assert (H : match fst c with Running _ cur _ => isisolate cur = false | _ => True end -> table (memory s') = table (memory (fst c))).
  { eapply step_fits; [..|exact E|exact FT]; auto with noiso. }
  apply H. clear H.
  destruct FT as [_ O]. destruct (fst c) as [st cur al|st q k|st|st]; auto. apply no_iso_is, O.
Qed.
