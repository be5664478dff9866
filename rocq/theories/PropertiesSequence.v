(* PropertiesSequence.v -- C68: brackets and isolating run sequences. *)
From Coq Require Import List ZArith Lia Bool.
From Verif Require Import Base Scrap Brackets Bd16Spec BracketProofs Utf8 Scanner ScannerProofs TextScan PropertiesScanner Resolver PropertiesResolver Uax9Text NestedText BracketText PropertiesNested PropertiesContext SequenceSpec SequenceProofs.
Import ListNotations.
Open Scope Z_scope.

(* Texts with isolates in any nesting, where every PDI has an initiator and the text does not begin with one: the handler
   that the parser finds for a bracket has been given, in order, the brackets of the isolating run sequence of
   that bracket -- for a bracket in the last isolate of the text, those of the sequence around this isolate. *)
Theorem C68_handler_partial :
  forall md props upper input ss st, lens_pos input -> total (para md props input) < 2 ^ 32 ->
    let ms := marks_of md props upper cNULL 0 (para md props input) in let hm := homes [] ms in
    matched 0 ms = true ->
    Scan md props upper None input = Ok (ss ++ [stopper]) -> ScanFinal md props upper None input = Ok st ->
    map (fun s => (clz s, sl s)) (filter solo ss) = map (fun m => (fst (fst m), snd m)) ms /\
    forall s, In s ss -> isbracket s = true -> exists o r es i h, In (o, (r, sl s)) hm /\
      findBD16ForPos st (sl s) = Some i /\ nth_error (s_hs st) i = Some h /\ h_bd h = bd16_run new_handler es /\
      map view es = sequence (if home o =? last_initiator 0 ms then home (tl o) else home o) hm /\
      (o <> [] -> home (tl o) <> home o) /\
      incl (map snd es) ss /\ Forall (fun e => isbracket (snd e) = true /\ (eff md props upper (fst e) <> cNSM -> clz (snd e) = eff md props upper (fst e))) es.
Proof. exact text_sequences. Qed.
Print Assumptions C68_handler_partial.

(* So the partner that is found for a bracket outside of the last isolate is the one that BD16 finds in its isolating run
   sequence, and there is none if BD16 finds none; for a bracket in the last isolate no partner is ever found. *)
Theorem C68_pairs_partial :
  forall md props upper input ss st, lens_pos input -> total (para md props input) < 2 ^ 32 ->
    let ms := marks_of md props upper cNULL 0 (para md props input) in let hm := homes [] ms in
    matched 0 ms = true ->
    Scan md props upper None input = Ok (ss ++ [stopper]) -> ScanFinal md props upper None input = Ok st ->
    forall s, In s ss -> isbracket s = true -> exists o r, In (o, (r, sl s)) hm /\
      (o <> [] /\ home o = last_initiator 0 ms -> fst (findBracket st s) = None) /\
      (o = [] \/ home o <> last_initiator 0 ms -> let bs := sequence (home o) hm in
       Forall (fun x => eff md props upper x = cBRACKO /\ is_op x = true \/ eff md props upper x = cBRACKC /\ is_cl x = true) (map fst bs) ->
       no_mix canon13 (map fst bs) (map fst bs) -> bd_fits uax9BracketPairs canon13 [] bs = true ->
       match fst (findBracket st s) with
       | Some x => In x ss /\ In (if clz s =? cBRACKO then (sl s, sl x) else (sl x, sl s)) (bd16 uax9BracketPairs canon13 [] bs)
       | None => forall q, In q (bd16 uax9BracketPairs canon13 [] bs) -> (if clz s =? cBRACKO then fst q else snd q) <> sl s
       end).
Proof. exact text_pairs. Qed.
Print Assumptions C68_pairs_partial.

(* The positions of the brackets of a text, each with that of its partner. *)
Definition partners (txt : list Z) : res (list (Z * option Z)) :=
  let* ss := Scan plain tab4 noupper None (bytes txt) in
  let* st := ScanFinal plain tab4 noupper None (bytes txt) in
  Ok (map (fun s => (sl s, option_map sl (fst (findBracket st s)))) (filter isbracket ss)).

(* a(<[a)=a>(a)=)<[a]=  where < is LRI, > is RLI, = is PDI: the brackets at 1 and 13 are in the text itself, those at 3 and 5 in
   the first isolate, and so on. *)
Definition text68 : list Z := [97; 40; 60; 91; 97; 41; 61; 97; 62; 40; 97; 41; 61; 41; 60; 91; 97; 93; 61].
Example C68_ex :
  let ms := marks_of plain tab4 noupper cNULL 0 (para plain tab4 (bytes text68)) in
  matched 0 ms = true /\ last_initiator 0 ms = 14 /\
  homes [] ms = [([], (40, 1)); ([2], (91, 3)); ([2], (41, 5)); ([8], (40, 9)); ([8], (41, 11)); ([], (41, 13)); ([14], (91, 15)); ([14], (93, 17))] /\
  sequence 8 (homes [] ms) = [(40, 9); (41, 11)] /\ bd16 uax9BracketPairs canon13 [] (sequence 8 (homes [] ms)) = [(9, 11)] /\
  bd16 uax9BracketPairs canon13 [] (sequence 0 (homes [] ms)) = [(1, 13)] /\ bd16 uax9BracketPairs canon13 [] (sequence 14 (homes [] ms)) = [(15, 17)] /\
  partners text68 = Ok [(1, Some 13); (3, None); (5, None); (9, Some 11); (11, Some 9); (13, Some 1); (15, None); (17, None)].
Proof. cbv zeta. do 7 (split; [vm_compute; reflexivity|]). vm_compute. reflexivity. Qed.

(* A PDI without initiator takes the text itself from the stack: after the next isolate its brackets are given to the
   handler of this isolate, and not found there.  a=a<a=a(A)<a=, the same text without the first PDI, and an
   initiator at the beginning: in <A(A=A)a<a= the bracket in the isolate is paired with the one behind it. *)
Theorem C68_pairs_refuted :
  partners [97; 61; 97; 60; 97; 61; 97; 40; 65; 41; 60; 97; 61] = Ok [(7, None); (9, None)] /\
  partners [97; 97; 60; 97; 61; 97; 40; 65; 41; 60; 97; 61] = Ok [(6, Some 8); (8, Some 6)] /\
  partners [60; 65; 40; 65; 61; 65; 41; 97; 60; 97; 61] = Ok [(2, Some 6); (6, Some 2)].
Proof. repeat split; vm_compute; reflexivity. Qed.
Print Assumptions C68_pairs_refuted.
Example C68_pairs_refuted_ex :
  let hm l := homes [] (marks_of plain tab4 noupper cNULL 0 (para plain tab4 (bytes l))) in
  bd16 uax9BracketPairs canon13 [] (sequence 0 (hm [97; 61; 97; 60; 97; 61; 97; 40; 65; 41; 60; 97; 61])) = [(7, 9)] /\
  hm [97; 60; 65; 40; 65; 61; 65; 41; 97; 60; 97; 61] = [([1], (40, 3)); ([], (41, 7))] /\
  partners [97; 60; 65; 40; 65; 61; 65; 41; 97; 60; 97; 61] = Ok [(3, None); (7, None)].
Proof. cbv zeta. repeat split; vm_compute; reflexivity. Qed.
