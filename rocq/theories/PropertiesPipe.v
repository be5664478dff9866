(* PropertiesPipe.v -- C37: the scanner goroutine terminates. *)
From Coq Require Import List ZArith Lia Bool.
From Verif Require Import Base Scrap Brackets Trie Rules RuleProofs Reorder Utf8 Scanner ScannerProofs TextScan PropertiesScanner Resolver ResolverProofs ResolverFlat ResolverText ResolverFuel PropertiesResolver Pipe PipeProofs.
Import ListNotations.
Open Scope Z_scope.

(* For the texts of C30, every schedule of the two goroutines ends, and it ends with both goroutines
   terminated.  The parser may see the bracket tables of the scanner in any state: [findBr] and
   [changeBr] are arbitrary functions on an arbitrary store, as long as they only report what can be
   the class of an opening bracket. *)
Theorem C37_terminates_partial :
  forall md props upper rtl input r len rest n
    (store : Type) (findBr : store -> scrap -> option scrap * store) changeBr (SI : store -> Prop) b,
    (forall b s a b', SI b -> findBr b s = (a, b') -> SI b' /\
      (clz s = cBRACKC -> forall o, a = Some o -> K rtl (clz o) \/ clz o = cNI \/ clz o = cBRACKO)) ->
    (forall b s, SI b -> K rtl (clz s) \/ clz s = cNI -> SI (changeBr b s)) -> SI b ->
    props_ok props -> lens_ok input -> total (para md props input) < 2 ^ 32 ->
    para md props input = (r, len) :: rest -> eff md props upper r <> cNSM -> (rtl = false -> m_r2l md = false) ->
    calm rtl cL cNULL (classes_of md props upper (para md props input)) = true ->
    (rounds (S (length input)) <= n)%nat ->
    let c0 := (start_scanner md input, ResolveP the_trie the_tab findBr changeBr n md b) in
    Acc (fun b a => cstep md props upper None a b) c0 /\
    exists lv, forall c, reach md props upper None c0 c -> stuck md props upper None c -> c = (Exited, Done (Ok lv)).
Proof.
  intros md props upper rtl input r len rest n store findBr changeBr SI b FO CO SB PO LO T EP EF LR CA FU c0.
  destruct (scan_calm md props upper rtl input r len rest) as (ss & E & G & NN & LE); auto.
  destruct (resolve_flat md (total (para md props input)) rtl findBr changeBr SI FO CO ss stopper [] b n) as (lv & ER & _); auto.
  { assert ((rounds (length ss) <= rounds (S (length input)))%nat); [|lia]. unfold rounds. nia. }
  destruct (schedules md props upper None _ _ findBr changeBr b input _ n lv [] E ER) as [A S]. split; [exact A|].
  exists lv. intros [s p] RE ST. destruct (S _ RE ST) as [X Y]. cbn [fst snd] in X, Y. rewrite X, Y. reflexivity.
Qed.
Print Assumptions C37_terminates_partial.
(* The tables of the scanner are such a store, in every state in which scanning may end; and there is a
   schedule. *)
Example C37_store_ex : forall rtl md props upper markup input, lens_ok input -> total (para md props input) < 2 ^ 32 ->
  (forall b s a b', SI rtl b -> findBracket b s = (a, b') -> SI rtl b' /\
    (clz s = cBRACKC -> forall o, a = Some o -> K rtl (clz o) \/ clz o = cNI \/ clz o = cBRACKO)) /\
  (forall b s, SI rtl b -> K rtl (clz s) \/ clz s = cNI -> SI rtl (changeBracket b s)) /\
  exists st, ScanFinal md props upper markup input = Ok st /\ SI rtl st.
Proof.
  intros rtl md props upper markup input L B. split; [exact (find_ok rtl)|]. split; [exact (change_ok rtl)|].
  destruct (ScanFinal_ok md props upper markup input L B) as (st & E & TM). exists st. split; [exact E|]. apply tame_SI, TM.
Qed.

(* For every text at all: if resolution on the sequence of the scanner's messages ends, then every
   schedule ends with these levels, and the scanner has terminated if and only if the parser has
   received all messages; otherwise it is blocked in a send for ever. *)
Theorem C37_schedules :
  forall md props upper markup (store : Type) tr tab (findBr : store -> scrap -> option scrap * store) changeBr b input ss n lv extra,
    Scan md props upper markup input = Ok ss ->
    ResolveLevels tr tab findBr changeBr n md ss b = Ok (lv, extra) ->
    let c0 := (start_scanner md input, ResolveP tr tab findBr changeBr n md b) in
    Acc (fun b a => cstep md props upper markup a b) c0 /\
    (exists c, reach md props upper markup c0 c /\ stuck md props upper markup c) /\
    forall c, reach md props upper markup c0 c -> stuck md props upper markup c ->
      snd c = Done (Ok lv) /\
      match extra with
      | [] => fst c = Exited
      | m :: _ => exists q next, fst c = Posting (m :: q) next
      end.
Proof.
  intros md props upper markup store tr tab findBr changeBr b input ss n lv extra ES ER c0.
  destruct (schedules md props upper markup tr tab findBr changeBr b input ss n lv extra ES ER) as [A S]. split; [exact A|]. split; [|exact S].
  apply ends, A.
Qed.
Print Assumptions C37_schedules.
Example C37_schedules_ex :
  exists ss lv st, Scan plain tab1 noupper None input1 = Ok ss /\ ScanFinal plain tab1 noupper None input1 = Ok st /\
    ResolveLevels the_trie the_tab findBracket changeBracket 300 plain ss st = Ok (lv, []).
Proof.
  eexists _, _, _. split; [vm_compute; reflexivity|]. split; [vm_compute; reflexivity|]. vm_compute. reflexivity.
Qed.

(* The empty text: the scanner sends two messages of class NULL, the parser stops at the first.  In
   every schedule the scanner ends blocked in its last send. *)
Theorem C37_empty_refuted :
  forall md props upper markup (store : Type) (findBr : store -> scrap -> option scrap * store) changeBr b input n,
    lens_ok input -> para md props input = [] -> (3 <= n)%nat ->
    let c0 := (start_scanner md input, ResolveP the_trie the_tab findBr changeBr n md b) in
    exists lv,
      (exists c, reach md props upper markup c0 c /\ stuck md props upper markup c) /\
      forall c, reach md props upper markup c0 c -> stuck md props upper markup c ->
        snd c = Done (Ok lv) /\ exists q next, fst c = Posting (stopper :: q) next.
Proof.
  intros md props upper markup store findBr changeBr b input n LO EP FU c0. pose proof (scan_empty md props upper markup input LO EP) as ES.
  destruct (first_null md findBr changeBr b n (initialOuterScrap md false) [stopper]) as (lv & ER); auto.
  { unfold initialOuterScrap. destruct (m_r2l md); reflexivity. }
  exists lv. destruct (C37_schedules md props upper markup store _ _ findBr changeBr b input _ n lv _ ES ER) as (A & X & S). auto.
Qed.
Print Assumptions C37_empty_refuted.
Example C37_empty_ex : para plain tab1 [] = [] /\ para plain tab1 (bytes [10; 97]) = [].
Proof. auto. Qed.

(* A text of which the scanner sends no more than a message of class NULL, such as one of nothing but
   non-spacing marks: the same. *)
Theorem C37_marks_refuted :
  forall md props upper markup (store : Type) (findBr : store -> scrap -> option scrap * store) changeBr b input x rest n,
    Scan md props upper markup input = Ok (x :: stopper :: rest) -> clz x = cNULL -> (3 <= n)%nat ->
    let c0 := (start_scanner md input, ResolveP the_trie the_tab findBr changeBr n md b) in
    exists lv,
      (exists c, reach md props upper markup c0 c /\ stuck md props upper markup c) /\
      forall c, reach md props upper markup c0 c -> stuck md props upper markup c ->
        snd c = Done (Ok lv) /\ exists q next, fst c = Posting (stopper :: q) next.
Proof.
  intros md props upper markup store findBr changeBr b input x rest n ES EX FU c0.
  destruct (first_null md findBr changeBr b n x (stopper :: rest)) as (lv & ER); auto.
  exists lv. destruct (C37_schedules md props upper markup store _ _ findBr changeBr b input _ n lv _ ES ER) as (A & X & S). auto.
Qed.
Print Assumptions C37_marks_refuted.
Example C37_marks_ex : exists x, Scan plain tab1 noupper None (ScanRunes (encode [769; 769])) = Ok [x; stopper] /\ clz x = cNULL.
Proof. eexists. split; vm_compute; reflexivity. Qed.

(* A PDI without initiator: the parser ends early, and the scanner is left blocked with the rest of the
   text. *)
Definition input3 := bytes [97; 8297; 97; 65; 97; 65; 97].
Theorem C37_unmatched_PDI_refuted :
  exists st lv, ScanFinal plain tab1 noupper None input3 = Ok st /\
    let c0 := (start_scanner plain input3, ResolveP the_trie the_tab findBracket changeBracket 200 plain st) in
    (exists c, reach plain tab1 noupper None c0 c /\ stuck plain tab1 noupper None c) /\
    forall c, reach plain tab1 noupper None c0 c -> stuck plain tab1 noupper None c ->
      snd c = Done (Ok lv) /\ exists m q next, fst c = Posting (m :: q) next /\ clz m = cL.
Proof.
  assert (exists st ss lv m extra, ScanFinal plain tab1 noupper None input3 = Ok st /\ Scan plain tab1 noupper None input3 = Ok ss /\
    ResolveLevels the_trie the_tab findBracket changeBracket 200 plain ss st = Ok (lv, m :: extra) /\ clz m = cL)
    as (st & ss & lv & m & extra & E1 & E2 & E3 & E4).
  { eexists _, _, _, _, _. split; [vm_compute; reflexivity|]. split; [vm_compute; reflexivity|]. split; [vm_compute; reflexivity|]. reflexivity. }
  exists st, lv. split; [exact E1|]. destruct (C37_schedules plain tab1 noupper None _ _ _ findBracket changeBracket st input3 ss 200 lv _ E2 E3) as (A & X & S).
  split; [exact X|]. intros c RE ST. destruct (S c RE ST) as (Y & q & next & Z0). split; [exact Y|]. eauto.
Qed.
Print Assumptions C37_unmatched_PDI_refuted.
Example C37_unmatched_PDI_ex : para plain tab1 input3 = input3 /\ length input3 = 7%nat.
Proof. vm_compute. auto. Qed.
