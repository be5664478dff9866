(* PipeProofs.v -- every schedule of the two goroutines ends in the same way. *)
From Coq Require Import List ZArith Lia Bool.
From Verif Require Import Base Scrap Brackets Trie Rules RuleProofs Reorder Scanner Resolver ResolverFlat Pipe.
Import ListNotations.
Open Scope Z_scope.

(* A process run on a list of messages, after which the channel is closed. *)
Fixpoint run {A} (p : proc A) (l : list scrap) : A * list scrap :=
  match p with
  | Done a => (a, l)
  | Tau p => run p l
  | Recv k => match l with [] => run (k scrap0) [] | m :: l => run (k m) l end
  end.

Lemma run_pbind {A B} (m : proc (res A)) (f : A -> proc (res B)) : forall l,
  run (pbind m f) l = match run m l with
                      | (Ok a, l') => run (f a) l'
                      | (Panic, l') => (Panic, l')
                      | (NoFuel, l') => (NoFuel, l')
                      end.
Proof.
  induction m as [[a| |]|m IH|k IH]; intros l; cbn [pbind run]; auto.
  destruct l as [|x l]; apply IH.
Qed.

(* ---- the parser on the list and the parser as a process ---- *)
Definition rmap {A B} (f : A -> B) (x : res A) : res B := match x with Ok a => Ok (f a) | Panic => Panic | NoFuel => NoFuel end.

Section Parser.
Context (tr : trie) (tab : list (option rule)).
Context {store : Type} (findBr : store -> scrap -> option scrap * store) (changeBr : store -> scrap -> store).
Notation pst := (pst store).
Definition setp (l : list scrap) (p : pst) : pst := mkp (p_stack p) (p_sp p) (p_eof p) l (p_depth p) (p_store p).

(* What the process delivers, as a result of the parser on the list. *)
Definition put {A} (f : list scrap -> A -> A) (x : res A * list scrap) : res A := rmap (f (snd x)) (fst x).

Lemma read_loop_run : forall n (p : pst) l,
  run (read_loopP n p) l = (let (k, q) := read_loop n (setp l p) in (Ok (k, setp (p_pipe p) q), p_pipe q)).
Proof.
  induction n as [|n IH]; intros p l; cbn [read_loopP run read_loop].
  - unfold setp. cbn. destruct p; reflexivity.
  - assert (E : forall s l', run (if clz s =? cNULL
        then Done (Ok (O, mkp (p_stack p) (p_sp p) true (p_pipe p) (p_depth p) (p_store p)))
        else let+ (k, p) := read_loopP n (mkp (p_stack p ++ [s]) (p_sp p) (p_eof p) (p_pipe p) (p_depth p) (p_store p)) in Done (Ok (S k, p))) l' =
      (let (k, q) := if clz s =? cNULL then (O, mkp (p_stack p) (p_sp p) true l' (p_depth p) (p_store p))
        else let (k, p) := read_loop n (mkp (p_stack p ++ [s]) (p_sp p) (p_eof p) l' (p_depth p) (p_store p)) in (S k, p) in
      (Ok (k, setp (p_pipe p) q), p_pipe q))).
    { intros s l'. destruct (clz s =? cNULL); [reflexivity|]. rewrite run_pbind, IH. unfold setp at 1. cbn [p_stack p_sp p_eof p_depth p_store p_pipe].
      destruct (read_loop n _) as [k q]. reflexivity. }
    unfold setp at 1. cbn [p_pipe p_stack p_sp p_eof p_depth p_store]. destruct l as [|m l]; cbn [receive]; apply E.
Qed.

Lemma read_run n (p : pst) l :
  run (readP n p) l = (let '(k, b, q) := read n (setp l p) in (Ok (k, b, setp (p_pipe p) q), p_pipe q)).
Proof.
  unfold readP, read. change (p_eof (setp l p)) with (p_eof p). destruct (_ || _); [unfold setp; cbn; destruct p; reflexivity|].
  rewrite run_pbind, read_loop_run. destruct (read_loop n (setp l p)) as [k q]. reflexivity.
Qed.

Lemma fill_run (p : pst) l : run (fillP p) l = (Ok (setp (p_pipe p) (fill (setp l p))), p_pipe (fill (setp l p))).
Proof.
  unfold fillP, fill. rewrite run_pbind, read_run. change (p_sp (setp l p)) with (p_sp p). change (p_stack (setp l p)) with (p_stack p).
  destruct (read _ _) as [[k b] q]. reflexivity.
Qed.

(* The rest of the parser does not look at the list. *)
Lemma reduce_setp l (p : pst) n rhs start : reduce (setp l p) n rhs start = match reduce p n rhs start with Some q => Some (setp l q) | None => None end.
Proof.
  unfold reduce. cbn [setp p_stack p_sp]. destruct (overwrite _ _ _) as [st|]; [|reflexivity]. cbn [obind].
  match goal with |- (if ?b then _ else _) = _ => destruct b end; reflexivity.
Qed.
Lemma apply_setp l (p : pst) r start lo : apply_rule (setp l p) r start lo = rmap (setp l) (apply_rule p r start lo).
Proof.
  unfold apply_rule. change (tail_at (setp l p)) with (tail_at p). destruct (tail_at p) as [m|]; [|reflexivity]. cbn [lift rbind].
  destruct (action r m) as [[[rhs jmp] nl]|]; [|reflexivity]. cbn [lift rbind]. rewrite reduce_setp.
  destruct (reduce p _ _ _); reflexivity.
Qed.
Lemma N0_setp l (p : pst) : performRuleN0 findBr changeBr (setp l p) =
  match performRuleN0 findBr changeBr p with Some (q, j) => Some (setp l q, j) | None => None end.
Proof.
  unfold performRuleN0. cbn [setp p_stack p_sp p_store]. destruct (nth_error _ _) as [s|]; [|reflexivity]. cbn [obind].
  destruct (findBr (p_store p) s) as [a b]. destruct (clz s =? cBRACKO).
  - destruct a as [c|]; [|reflexivity]. destruct (has_match_after c s); [reflexivity|]. destruct (has_opposite_after c s); reflexivity.
  - reflexivity.
Qed.
Lemma pass2_setp l : forall n start (p : pst), pass2 tr tab findBr changeBr n start (setp l p) = rmap (setp l) (pass2 tr tab findBr changeBr n start p).
Proof.
  induction n as [|n IH]; intros start p; [reflexivity|]. cbn [pass2]. change (p_sp (setp l p)) with (p_sp p). change (p_stack (setp l p)) with (p_stack p).
  match goal with |- rbind (lift ?x) _ = _ => destruct x as [passed|] end; [|reflexivity]. cbn [lift rbind].
  destruct (_ || _); [reflexivity|]. destruct (nth_error (p_stack p) (p_sp p)) as [s|]; [|reflexivity]. cbn [lift rbind].
  destruct (isbracket s).
  - rewrite N0_setp. destruct (performRuleN0 findBr changeBr p) as [[q j]|]; [|reflexivity]. cbn [lift rbind].
    exact (IH start (with_sp q (jump start (p_sp q) j))).
  - change (match_at tr tab (setp l p) 2) with (match_at tr tab p 2). destruct (match_at tr tab p 2) as [[ru sh]| |]; [|reflexivity|reflexivity].
    cbn [rbind]. match goal with |- match ?x with _ => _ end = _ => destruct x as [r|] end.
    + destruct (pass r <? 2); [exact (IH start (with_sp p (S (p_sp p))))|]. rewrite apply_setp.
      destruct (apply_rule p r start 0); [apply IH|reflexivity|reflexivity].
    + exact (IH start (with_sp p (S (p_sp p)))).
Qed.

Definition put1 (x : res (bool * pst) * list scrap) : res (bool * pst) :=
  match x with (Ok (b, q), l) => Ok (b, setp l q) | (Panic, _) => Panic | (NoFuel, _) => NoFuel end.
Definition put2 (x : res (list scrap * nat * bool * pst) * list scrap) : res (list scrap * nat * bool * pst) :=
  match x with (Ok (a, b, c, q), l) => Ok (a, b, c, setp l q) | (Panic, _) => Panic | (NoFuel, _) => NoFuel end.

Notation pass1_loop := (pass1_loop tr tab findBr changeBr).
Notation parseIRS := (parseIRS tr tab findBr changeBr).
Notation pass1P := (pass1P tr tab findBr changeBr).
Notation parseP := (parseP tr tab findBr changeBr).

Lemma setp_setp a b (p : pst) : setp a (setp b p) = setp a p.
Proof. reflexivity. Qed.
Lemma setp_self (p : pst) : setp (p_pipe p) p = p.
Proof. destruct p; reflexivity. Qed.

Lemma parse_run : forall n,
  (forall start walk short p l, pass1_loop n start walk short (setp l p) = put1 (run (pass1P n start walk short p) l)) /\
  (forall start p l, parseIRS n start (setp l p) = put2 (run (parseP n start p) l)).
Proof.
  induction n as [|n [IH1 IH2]]; [split; reflexivity|]. split.
  - intros start walk short p l. cbn [Resolver.pass1_loop Pipe.pass1P].
    fold (@Resolver.parseIRS tr tab store findBr changeBr). fold (@Pipe.parseP tr tab store findBr changeBr).
    rewrite run_pbind, fill_run. cbn [run]. set (q := setp (p_pipe p) (fill (setp l p))). set (l' := p_pipe (fill (setp l p))).
    assert (EQ : fill (setp l p) = setp l' q).
    { unfold q, l'. rewrite setp_setp, setp_self. reflexivity. }
    cbv zeta. rewrite EQ. change (p_stack (setp l' q)) with (p_stack q). change (p_sp (setp l' q)) with (p_sp q). change (p_eof (setp l' q)) with (p_eof q).
    clearbody q l'. clear EQ p l.
    destruct (_ =? _)%nat; [destruct (p_eof q); reflexivity|]. destruct walk.
    + match goal with |- match ?x with _ => _ end = _ => destruct x as [r|] end.
      * rewrite apply_setp, run_pbind. cbn [run]. destruct (apply_rule q r start start) as [q'| |]; [|reflexivity|reflexivity]. cbn [rmap rbind]. apply IH1.
      * rewrite run_pbind. cbn [run]. destruct (nth_error (p_stack q) (p_sp q)) as [s|]; [|reflexivity]. cbn [lift rbind].
        destruct (clz s =? cPDI); [reflexivity|]. destruct (isisolate s); [|exact (IH1 start false None (with_sp q (S (p_sp q))) l')].
        rewrite run_pbind, IH2. destruct (run (parseP n (p_sp q) q) l') as [[[[[rhs runlen] ok] q']| |] l'']; [|reflexivity|reflexivity].
        cbn [put2 rbind]. destruct ok.
        -- rewrite run_pbind. cbn [run]. change (with_sp (setp l'' q') (p_sp q)) with (setp l'' (with_sp q' (p_sp q))). rewrite reduce_setp.
           destruct (reduce (with_sp q' (p_sp q)) runlen rhs start) as [q''|]; [|reflexivity]. cbn [lift rbind]. apply IH1.
        -- destruct (runlen =? 0)%nat; [reflexivity|]. rewrite run_pbind. cbn [run]. destruct rhs as [|x t]; [reflexivity|]. cbn [rbind].
           rewrite run_pbind. cbn [run]. change (with_sp (setp l'' q') (p_sp q)) with (setp l'' (with_sp q' (p_sp q))). rewrite reduce_setp.
           destruct (reduce (with_sp q' (p_sp q)) runlen _ start) as [q''|]; [|reflexivity]. cbn [lift rbind].
           exact (IH1 start false None (with_sp q'' (jump start (p_sp q'') (-2))) l'').
    + rewrite run_pbind. cbn [run]. change (match_at tr tab (setp l' q) 0) with (match_at tr tab q 0).
      destruct (match_at tr tab q 0) as [[ru sh]| |]; [|reflexivity|reflexivity]. cbn [rbind].
      match goal with |- match ?x with _ => _ end = _ => destruct x as [r|] end.
      * rewrite apply_setp, run_pbind. cbn [run]. destruct (apply_rule q r start start) as [q'| |]; [|reflexivity|reflexivity]. cbn [rmap rbind]. apply IH1.
      * apply IH1.
  - intros start p l. cbn [Resolver.parseIRS Pipe.parseP].
    fold (@Resolver.pass1_loop tr tab store findBr changeBr). fold (@Pipe.pass1P tr tab store findBr changeBr).
    cbv zeta. set (p0 := with_sp (with_depth p (S (p_depth p))) (S start)).
    change (with_sp (with_depth (setp l p) (S (p_depth (setp l p)))) (S start)) with (setp l p0).
    rewrite run_pbind, read_run. destruct (read 3 (setp l p0)) as [[k ok] q] eqn:ER. set (q0 := setp (p_pipe p0) q).
    assert (EQ : q = setp (p_pipe q) q0) by (unfold q0; rewrite setp_setp, setp_self; reflexivity).
    set (l' := p_pipe q) in *. clearbody l' q0. subst q. clear ER p0 p l.
    assert (E1 : (if ok then pass1_loop n (S start) false None (setp l' q0) else Ok (false, setp l' q0)) =
                 put1 (run (if ok then pass1P n (S start) false None q0 else Done (Ok (false, q0))) l')).
    { destruct ok; [apply IH1|reflexivity]. }
    rewrite E1, run_pbind. destruct (run (if ok then _ else _) l') as [[[ok' q1]| |] l1]; [|reflexivity|reflexivity].
    cbn [put1 rbind run]. rewrite run_pbind. cbn [run]. change (p_depth (setp l1 q1)) with (p_depth q1).
    change (with_sp (setp l1 q1) start) with (setp l1 (with_sp q1 start)). rewrite pass2_setp.
    assert (E2 : (if ok' || (p_depth q1 =? 1)%nat then rmap (setp l1) (pass2 tr tab findBr changeBr n start (with_sp q1 start)) else Ok (setp l1 q1)) =
                 rmap (setp l1) (if ok' || (p_depth q1 =? 1)%nat then pass2 tr tab findBr changeBr n start (with_sp q1 start) else Ok q1))
      by (destruct (_ || _); reflexivity).
    rewrite E2. match goal with |- rbind (rmap _ ?x) _ = _ => destruct x as [q2| |] end; [|reflexivity|reflexivity].
    cbn [rmap rbind]. rewrite run_pbind. cbn [run]. change (p_depth (setp l1 q2)) with (p_depth q2). change (p_stack (setp l1 q2)) with (p_stack q2).
    change (p_sp (setp l1 q2)) with (p_sp q2).
    match goal with |- rbind ?x _ = _ => destruct x as [result| |] end; reflexivity.
Qed.

Lemma resolve_run n md b pipe : ResolveLevels tr tab findBr changeBr n md pipe b =
  match run (ResolveP tr tab findBr changeBr n md b) pipe with
  | (Ok lv, extra) => Ok (lv, extra)
  | (Panic, _) => Panic
  | (NoFuel, _) => NoFuel
  end.
Proof.
  unfold ResolveLevels, ResolveP. cbv zeta. set (i := initialOuterScrap md true). set (p0 := mkp [i] 0 false [] 0 b).
  change (mkp [i] 0 false pipe 0 b) with (setp pipe p0). rewrite (proj2 (parse_run n)), run_pbind.
  destruct (run (parseP n 0 p0) pipe) as [[[[[runs k] ok] q]| |] l]; [|reflexivity|reflexivity]. cbn [put2 rbind].
  rewrite run_pbind. cbn [run]. destruct (zget runs (zlen runs - 1)); reflexivity.
Qed.
End Parser.

(* ---- the two goroutines ---- *)
Section System.
Context (md : mode) (props : Z -> Z * Z) (upper : Z -> bool) (markup : option (Z -> Z)).
Context {A : Type}.
Notation scan_loop := (scan_loop md props upper markup).
Notation cstep := (@cstep md props upper markup A).
Notation reach := (@reach md props upper markup A).
Notation stuck := (@stuck md props upper markup A).

(* The scanner will send l and then close the channel, with at most n turns of its loop. *)
Definition posts (n : nat) (s : sender) (l : list scrap) : Prop :=
  match s with
  | Scanning st cur al => scan_loop n st cur al = Ok l
  | Posting q None => l = q
  | Posting q (Some (st, cur, al)) => exists l', scan_loop n st cur al = Ok l' /\ l = q ++ l'
  | Crashed => False
  | Exited => l = []
  end.

(* Whatever happens, the parser ends with r and the messages in extra are left. *)
Definition will (r : A) (extra : list scrap) (c : sender * proc A) : Prop :=
  exists n l, posts n (fst c) l /\ run (snd c) l = (r, extra).

Lemma step_will r extra c d : cstep c d -> will r extra c -> will r extra d.
Proof.
  intros H (n & l & P & R). destruct H as [st cur al p out next E|st cur al p E|st cur al p|p|s p|x q next k|k]; cbn [fst snd posts] in P, R.
  - destruct n as [|n]; [discriminate|]. cbn [Scanner.scan_loop] in P. rewrite E in P. cbn [lift rbind] in P.
    exists n. destruct next as [[[st' cur'] al']|].
    + destruct (scan_loop n st' cur' al') as [l'| |] eqn:E'; [|discriminate|discriminate]. cbn [rbind] in P. injection P as <-.
      exists (out ++ l'). cbn [fst snd posts]. eauto.
    + injection P as <-. exists out. cbn [fst snd posts]. auto.
  - destruct n as [|n]; [discriminate|]. cbn [Scanner.scan_loop] in P. rewrite E in P. discriminate.
  - destruct P as (l' & P & ->). exists n, l'. auto.
  - subst l. exists n, []. cbn [fst snd posts]. auto.
  - exists n, l. auto.
  - destruct next as [[[st cur] al]|].
    + destruct P as (l' & P & ->). exists n, (q ++ l'). cbn [fst snd posts]. eauto.
    + subst l. exists n, q. cbn [fst snd posts]. auto.
  - subst l. exists n, []. cbn [fst snd posts]. auto.
Qed.

Lemma reach_will r extra c d : reach c d -> will r extra c -> will r extra d.
Proof. induction 1 as [|a b c S _ IH]; auto. intros W. apply IH. eapply step_will; eauto. Qed.

(* How it ends: the parser is done; the scanner is done if nothing is left and blocked otherwise. *)
Definition ended (r : A) (extra : list scrap) (c : sender * proc A) : Prop :=
  snd c = Done r /\ match extra with
                    | [] => fst c = Exited
                    | m :: _ => exists q next, fst c = Posting (m :: q) next
                    end.

Lemma stuck_ended r extra c : will r extra c -> stuck c -> ended r extra c.
Proof.
  intros (n & l & P & R) ST. destruct c as [s p]. cbn [fst snd] in P, R.
  assert (S : s = Exited \/ exists m q next, s = Posting (m :: q) next).
  { destruct s as [st cur al|[|m q] [[[st cur] al]|]| |]; eauto; exfalso.
    - destruct (scan_step md props upper markup st cur al) as [[out next]|] eqn:E; eapply ST; [eapply step_scan|eapply step_crash]; eauto.
    - eapply ST, step_loop.
    - eapply ST, step_close.
    - exact P. }
  assert (exists r', p = Done r') as [r' ->].
  { destruct p as [r'|p|k]; eauto; exfalso; [eapply ST, step_tau|]. destruct S as [-> | (m & q & next & ->)]; eapply ST; [eapply step_closed|eapply step_comm]. }
  cbn [run] in R. injection R as -> ->. split; [reflexivity|]. cbn [fst]. destruct S as [-> | (m & q & next & ->)].
  - cbn [posts] in P. subst extra. reflexivity.
  - cbn [posts] in P. destruct next as [[[st cur] al]|].
    + destruct P as (l' & _ & ->). cbn [app]. eauto.
    + subst extra. eauto.
Qed.

(* There is no infinite schedule. *)
Definition busy (n : nat) (s : sender) : nat :=
  match s with
  | Scanning _ _ _ => 2 * n
  | Posting _ (Some _) => 2 * n + 1
  | Posting _ None => 1
  | _ => 0
  end.

(* A step of the scanner alone. *)
Definition alone (s s' : sender) : Prop := forall n l, posts n s l -> exists n', posts n' s' l /\ (busy n' s' < busy n s)%nat.

Lemma inner p r extra : (forall s d, cstep (s, p) d -> will r extra d -> (exists s', d = (s', p) /\ alone s s') \/ Acc (fun b a => cstep a b) d) ->
  forall k n s l, (busy n s <= k)%nat -> posts n s l -> run p l = (r, extra) -> Acc (fun b a => cstep a b) (s, p).
Proof.
  intros H. induction k as [|k IH]; intros n s l B P R; constructor; intros d C;
    (assert (W : will r extra d) by (eapply step_will; [exact C|]; exists n, l; auto));
    destruct (H s d C W) as [(s' & -> & AL)|]; auto; destruct (AL n l P) as (n' & P' & LT); [lia|].
  apply (IH n' s' l); auto. lia.
Qed.

Lemma alone_scan st cur al out next : scan_step md props upper markup st cur al = Some (out, next) -> alone (Scanning st cur al) (Posting out next).
Proof.
  intros E n l P. cbn [posts] in P. destruct n as [|n]; [discriminate|]. cbn [Scanner.scan_loop] in P. rewrite E in P. cbn [lift rbind] in P.
  exists n. destruct next as [[[st' cur'] al']|].
  - destruct (scan_loop n st' cur' al') as [l'| |] eqn:E'; [|discriminate|discriminate]. cbn [rbind] in P. injection P as <-.
    split; [cbn [posts]; eauto|cbn [busy]; lia].
  - injection P as <-. split; [reflexivity|cbn [busy]; lia].
Qed.
Lemma alone_crash st cur al : scan_step md props upper markup st cur al = None -> alone (Scanning st cur al) Crashed.
Proof.
  intros E n l P. cbn [posts] in P. destruct n as [|n]; [discriminate|]. cbn [Scanner.scan_loop] in P. rewrite E in P. discriminate.
Qed.
Lemma alone_loop st cur al : alone (Posting [] (Some (st, cur, al))) (Scanning st cur al).
Proof. intros n l (l' & P & ->). exists n. split; [exact P|cbn [busy]; lia]. Qed.
Lemma alone_close : alone (Posting [] None) Exited.
Proof. intros n l P. cbn [posts] in P. subst l. exists n. split; [reflexivity|cbn [busy]; lia]. Qed.

Lemma schedules_finite r extra : forall c, will r extra c -> Acc (fun b a => cstep a b) c.
Proof.
  intros [s p] (n & l & P & R). cbn [fst snd] in P, R.
  assert (G : forall s, will r extra (s, p) -> Acc (fun b a => cstep a b) (s, p)); [|apply G; exists n, l; auto].
  clear s n l P R. induction p as [a|p IH|k IH]; intros s (n & l & P & R); (eapply (inner _ r extra); [|apply le_n|exact P|exact R]);
    clear s n l P R; intros s d C W; inversion C; subst;
    eauto 6 using alone_scan, alone_crash, alone_loop, alone_close.
Qed.
End System.

(* The paragraph as a system: for every text for which the resolution on the list ends, every schedule
   ends, with the same runs; the scanner has ended too exactly if no message is left. *)
Theorem schedules md props upper markup {store} tr tab (findBr : store -> scrap -> option scrap * store) changeBr b input ss n lv extra :
  Scan md props upper markup input = Ok ss ->
  ResolveLevels tr tab findBr changeBr n md ss b = Ok (lv, extra) ->
  let c0 := (start_scanner md input, ResolveP tr tab findBr changeBr n md b) in
  Acc (fun b a => cstep md props upper markup a b) c0 /\
  forall c, reach md props upper markup c0 c -> stuck md props upper markup c -> ended (Ok lv) extra c.
Proof.
  intros ES ER c0. rewrite resolve_run in ER. destruct (run _ ss) as [[lv'| |] extra'] eqn:E; [|discriminate|discriminate]. injection ER as -> ->.
  assert (W : will md props upper markup (Ok lv) extra c0) by (eexists; exists ss; split; [exact ES|exact E]).
  split; [eapply schedules_finite; exact W|]. intros c RE ST. eapply stuck_ended; [|exact ST]. eapply reach_will; eauto.
Qed.

(* A configuration is stuck or can make a step. *)
Lemma progress md props upper markup {A} (c : sender * proc A) : (exists d, cstep md props upper markup c d) \/ stuck md props upper markup c.
Proof.
  destruct c as [s [r|p|k]].
  - destruct s as [st cur al|[|m q] [[[st cur] al]|]| |].
    + left. destruct (scan_step md props upper markup st cur al) as [[out next]|] eqn:E; eexists; [eapply step_scan|eapply step_crash]; eauto.
    + left. eexists. eapply step_loop.
    + left. eexists. eapply step_close.
    + right. intros d C. inversion C.
    + right. intros d C. inversion C.
    + right. intros d C. inversion C.
    + right. intros d C. inversion C.
  - left. eexists. eapply step_tau.
  - destruct s as [st cur al|[|m q] [[[st cur] al]|]| |].
    + left. destruct (scan_step md props upper markup st cur al) as [[out next]|] eqn:E; eexists; [eapply step_scan|eapply step_crash]; eauto.
    + left. eexists. eapply step_loop.
    + left. eexists. eapply step_close.
    + left. eexists. eapply step_comm.
    + left. eexists. eapply step_comm.
    + right. intros d C. inversion C.
    + left. eexists. eapply step_closed.
Qed.

Lemma ends md props upper markup {A} (c : sender * proc A) : Acc (fun b a => cstep md props upper markup a b) c ->
  exists d, reach md props upper markup c d /\ stuck md props upper markup d.
Proof.
  induction 1 as [c _ IH]. destruct (progress md props upper markup c) as [(d & C)|S].
  - destruct (IH d C) as (e & R & S). exists e. split; [eapply reach_step; eauto|exact S].
  - exists c. split; [apply reach_refl|exact S].
Qed.

(* A first message of class NULL ends the parser. *)
Lemma first_null md {store} (findBr : store -> scrap -> option scrap * store) changeBr b n x rest : clz x = cNULL -> (3 <= n)%nat ->
  exists lv, ResolveLevels the_trie the_tab findBr changeBr n md (x :: rest) b = Ok (lv, rest).
Proof.
  intros E LE. destruct n as [|[|[|n]]]; [lia|lia|lia|]. unfold ResolveLevels. rewrite parseIRS_eq. cbv zeta.
  unfold with_depth, with_sp. cbn [p_stack p_sp p_eof p_pipe p_depth p_store]. unfold read. cbn [Nat.eqb p_eof orb].
  cbn [read_loop p_pipe receive]. rewrite E. change (cNULL =? cNULL) with true. cbn [rbind p_depth p_stack p_sp p_eof p_pipe p_store Nat.eqb orb].
  destruct md as [[] ig te]; eexists; vm_compute; reflexivity.
Qed.
