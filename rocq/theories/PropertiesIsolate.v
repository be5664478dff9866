(* PropertiesIsolate.v -- C58 and C59 for texts with isolates. *)
From Coq Require Import List ZArith Lia Bool.
From Verif Require Import Base Scrap Brackets Scanner ScannerProofs TextScan PropertiesScanner Resolver PropertiesResolver ResolverFlat ResolverText NestedText PropertiesNested ScanContext BracketText PropertiesContext SequenceSpec SequenceProofs Isolates IsolateText.
Import ListNotations.
Open Scope Z_scope.

(* ---- C58 ---- *)

(* Texts without AL and FSI, in which every initiator stands behind a run that is neither strong nor an
   isolate character: every run carries the direction of its isolating run sequence and the last strong
   class before it in this sequence; the sequence of an isolate begins with the direction of the isolate,
   the outer one with L. *)
Theorem C58_strong_isolates_partial :
  forall md props upper input r len rest ss,
    props_ok props -> lens_pos input -> total (para md props input) < 2 ^ 32 ->
    para md props input = (r, len) :: rest -> eff md props upper r <> cNSM -> no_AL md props upper (para md props input) ->
    Scan md props upper None input = Ok (ss ++ [stopper]) -> roomy false (map clz ss) = true ->
    forall A o s C, seats [] ss = A ++ (o, s) :: C -> isisolate s = false ->
      edir (sctx s) = direction (outer md) o /\ dcStrong (sctx s) = last_strong (beginning o) (map clz (fellows (seat o) A)).
Proof. exact isolate_strong. Qed.
Print Assumptions C58_strong_isolates_partial.
(* A blank > a blank < A blank = blank = ( *)
Example C58_strong_isolates_ex :
  let ss := scanned plain [65; 32; 62; 97; 32; 60; 65; 32; 61; 32; 61; 40] in
  roomy false (map clz ss) = true /\
  map (fun x => (seat (fst x), clz (snd x))) (seats [] ss) =
    [(0, cR); (0, cNI); (0, cRLI); (2, cL); (2, cNI); (2, cLRI); (5, cR); (5, cNI); (2, cPDI); (2, cNI); (0, cPDI); (0, cBRACKO)] /\
  map (fun s => (edir (sctx s), dcStrong (sctx s))) (filter (fun s => negb (isisolate s)) ss) =
    [(cL, cL); (cL, cR); (cR, cR); (cR, cL); (cL, cL); (cL, cR); (cR, cL); (cL, cR)].
Proof. cbv zeta. split; [vm_compute; reflexivity|]. split; vm_compute; reflexivity. Qed.
Example C58_strong_isolates_text :
  let input := bytes [65; 32; 62; 97; 32; 60; 65; 32; 61; 32; 61; 40] in
  lens_pos input /\ no_AL plain tab4 noupper (para plain tab4 input) /\ total (para plain tab4 input) = 12.
Proof.
  cbv zeta. split; [|split; [|vm_compute; reflexivity]]; apply Forall_forall; intros c I; vm_compute in I; decompose [or] I; subst; try contradiction; (reflexivity || discriminate).
Qed.

(* A strong run directly before an isolate is forgotten after it: in a A < a = ( the strong class before
   the bracket is R, the code has L. *)
Theorem C58_before_isolate_refuted :
  let ss := scanned plain [97; 65; 60; 97; 61; 40] in
  map clz ss = [cL; cR; cLRI; cL; cPDI; cBRACKO] /\
  map (fun s => dcStrong (sctx s)) ss = [cL; cL; cL; cL; cL; cL] /\
  last_strong cL [cL; cR; cLRI; cPDI] = cR.
Proof. cbv zeta. split; [vm_compute; reflexivity|]. split; [vm_compute; reflexivity|reflexivity]. Qed.
Print Assumptions C58_before_isolate_refuted.
Example C58_before_isolate_ex : roomy false (map clz (scanned plain [97; 65; 60; 97; 61; 40])) = false /\
  map (fun s => dcStrong (sctx s)) (scanned plain [97; 65; 32; 60; 97; 61; 40]) = [cL; cL; cR; cR; cL; cL; cR].
Proof. split; vm_compute; reflexivity. Qed.

(* An isolate at the beginning of another one: after it the strong class is that before the outer isolate.
   In A blank < < a = ( the bracket stands in a left-to-right isolate without a strong character of its own. *)
Theorem C58_first_in_isolate_refuted :
  let ss := scanned plain [65; 32; 60; 60; 97; 61; 40] in
  map (fun x => (seat (fst x), clz (snd x))) (seats [] ss) = [(0, cR); (0, cNI); (0, cLRI); (2, cLRI); (3, cL); (2, cPDI); (2, cBRACKO)] /\
  map (fun s => dcStrong (sctx s)) ss = [cL; cR; cR; cR; cL; cL; cR] /\
  last_strong cL [cLRI; cPDI] = cL.
Proof. cbv zeta. split; [vm_compute; reflexivity|]. split; [vm_compute; reflexivity|reflexivity]. Qed.
Print Assumptions C58_first_in_isolate_refuted.
Example C58_first_in_isolate_ex : map (fun s => dcStrong (sctx s)) (scanned plain [65; 32; 60; 32; 60; 97; 61; 40]) = [cL; cR; cR; cL; cL; cL; cL; cL].
Proof. vm_compute. reflexivity. Qed.

(* ---- C59 ---- *)

(* The same texts, of less than 64 KB, in which every PDI has an initiator: at an opening bracket for which
   a partner is found, the partner is a later bracket of the same isolating run sequence, and rule N0 is
   applied with the direction of this sequence, the strong class before the pair in this sequence, and the
   classes of the runs between the brackets that belong to this sequence, so that isolates between the
   brackets do not count.  The closing bracket gets the same class afterwards. *)
Theorem C59_isolates_partial :
  forall md props upper input r len rest ss st,
    props_ok props -> lens_pos input -> total (para md props input) < 65536 ->
    para md props input = (r, len) :: rest -> eff md props upper r <> cNSM -> no_AL md props upper (para md props input) ->
    matched 0 (marks_of md props upper cNULL 0 (para md props input)) = true ->
    Scan md props upper None input = Ok (ss ++ [stopper]) -> ScanFinal md props upper None input = Ok st -> roomy false (map clz ss) = true ->
    forall o l p, In o ss -> clz o = cBRACKO -> p_store p = changed st l -> nth_error (p_stack p) (p_sp p) = Some o ->
      match fst (findBracket st o) with
      | None => exists p', performRuleN0 findBracket changeBracket p = Some (p', 1) /\ p_stack p' = p_stack p /\ p_sp p' = p_sp p /\ p_store p' = p_store p
      | Some c => exists A op W op' V k p' jmp, seats [] ss = A ++ (op, o) :: W ++ (op', c) :: V /\ seat op' = seat op /\ clz c = cBRACKC /\
          performRuleN0 findBracket changeBracket p = Some (p', jmp) /\ p_stack p' = nset (p_stack p) (p_sp p) (with_clz o k) /\ p_sp p' = p_sp p /\
          p_store p' = changed st (l ++ [with_clz o k]) /\
          (let e := direction (outer md) op in
           let s := if sl o =? 0 then e else last_strong (beginning op) (map clz (fellows (seat op) A)) in
           let inside := map clz (fellows (seat op) W) in
           k = n0 e s inside \/ k = e /\ s = e /\ existsb (Z.eqb e) inside = false /\ existsb (Z.eqb (opposite e)) inside = false) /\
          exists o', fst (findBracket (p_store p') c) = Some o' /\ sl o' = sl o /\ clz o' = k
      end.
Proof. exact isolate_rule. Qed.
Print Assumptions C59_isolates_partial.
(* A ( A blank < a = ) : the a between the brackets is in an isolate, the pair is R. *)
Example C59_isolates_ex :
  let input := bytes [65; 40; 65; 32; 60; 97; 61; 41] in let ss := scanned plain [65; 40; 65; 32; 60; 97; 61; 41] in
  roomy false (map clz ss) = true /\ matched 0 (marks_of plain tab4 noupper cNULL 0 (para plain tab4 input)) = true /\
  match ScanFinal plain tab4 noupper None input, nth_error ss 1 with
  | Ok st, Some o => match fst (findBracket st o) with Some c => Some (sl c, n0_code o c) | None => None end
  | _, _ => None
  end = Some (7, cR) /\ n0 cL cR [cR; cNI; cLRI; cPDI] = cR /\ n0 cL cR [cR; cNI; cLRI; cL; cPDI] = cL.
Proof. cbv zeta. do 3 (split; [vm_compute; reflexivity|]). split; reflexivity. Qed.
(* The same inside of a right-to-left isolate: a blank > a ( a ) = < a = has the pair L, after its a. *)
Example C59_inside_ex :
  let input := bytes [97; 32; 62; 97; 40; 97; 41; 61; 32; 60; 97; 61] in let ss := scanned plain [97; 32; 62; 97; 40; 97; 41; 61; 32; 60; 97; 61] in
  roomy false (map clz ss) = true /\ matched 0 (marks_of plain tab4 noupper cNULL 0 (para plain tab4 input)) = true /\
  match ScanFinal plain tab4 noupper None input, nth_error ss 4 with
  | Ok st, Some o => match fst (findBracket st o) with Some c => Some (sl c, n0_code o c) | None => None end
  | _, _ => None
  end = Some (6, cL) /\ n0 cR cL [cL] = cL.
Proof. cbv zeta. do 3 (split; [vm_compute; reflexivity|]). reflexivity. Qed.

(* A strong run directly before an isolate: in a A < a = ( A ) the pair would be R by N0; the code makes it L. *)
Theorem C59_before_isolate_refuted :
  let input := bytes [97; 65; 60; 97; 61; 40; 65; 41] in let ss := scanned plain [97; 65; 60; 97; 61; 40; 65; 41] in
  match ScanFinal plain tab4 noupper None input, nth_error ss 5 with
  | Ok st, Some o => match fst (findBracket st o) with Some c => Some (clz o, sl c, n0_code o c) | None => None end
  | _, _ => None
  end = Some (cBRACKO, 7, cL) /\ n0 cL (last_strong cL [cL; cR; cLRI; cPDI]) [cR] = cR.
Proof. cbv zeta. split; [vm_compute; reflexivity|reflexivity]. Qed.
Print Assumptions C59_before_isolate_refuted.
Example C59_before_isolate_ex : map clz (scanned plain [97; 65; 60; 97; 61; 40; 65; 41]) = [cL; cR; cLRI; cL; cPDI; cBRACKO; cR; cBRACKC].
Proof. vm_compute. reflexivity. Qed.
