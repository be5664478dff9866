(* PropertiesContext.v -- C58: directional contexts; C59: bracket pairs; C28 for texts. *)
From Coq Require Import List ZArith Lia Bool.
From Verif Require Import Base Scrap Brackets Bd16Spec BracketProofs Trie Rules RuleProofs Reorder ReorderSpec Scanner ScannerProofs TextScan PropertiesScanner Resolver PropertiesResolver ResolverFlat ResolverText NestedText PropertiesNested ScanContext BracketText.
Import ListNotations.
Open Scope Z_scope.

(* A table with AN as well, %, the AL, and a second kind of brackets. *)
Definition tab4 (r : Z) : Z * Z :=
  if r =? 42 then (cAN, 0) else if r =? 37 then (cAL, 0) else if r =? 91 then (cON, 1) else if r =? 93 then (cON, 2) else tab3 r.
Definition scanned (md : mode) (rs : list Z) : list scrap :=
  match Scan md tab4 noupper None (bytes rs) with Ok ss => removelast ss | _ => [] end.

(* ---- C58 ---- *)

(* Every scrap carries the direction of the innermost isolate around it, for texts in which no PDI is
   directly followed by another initiator; an FSI keeps the direction outside. *)
Theorem C58_embedding_partial :
  forall md props upper input r len rest ss,
    props_ok props -> lens_ok input -> para md props input = (r, len) :: rest -> eff md props upper r <> cNSM ->
    Scan md props upper None input = Ok (ss ++ [stopper]) -> apart (map clz ss) = true ->
    map (fun s => edir (sctx s)) ss = nesting (outer md) [] (map clz ss).
Proof. exact scan_nesting. Qed.
Print Assumptions C58_embedding_partial.
(* a > A < a ? a = = A = a *)
Example C58_embedding_ex :
  let ss := scanned plain [97; 62; 65; 60; 97; 63; 97; 61; 61; 65; 61; 97] in
  Scan plain tab4 noupper None (bytes [97; 62; 65; 60; 97; 63; 97; 61; 61; 65; 61; 97]) = Ok (ss ++ [stopper]) /\
  apart (map clz ss) = true /\
  nesting cL [] (map clz ss) = [cL; cR; cR; cL; cL; cL; cL; cL; cL; cR; cR; cL].
Proof. cbv zeta. split; [vm_compute; reflexivity|]. split; vm_compute; reflexivity. Qed.

(* After a > A = < a = a the context of the first isolate is still there: the last letter is taken to be
   inside a right-to-left isolate. *)
Theorem C58_adjacent_isolates_refuted :
  let ss := scanned plain [97; 62; 65; 61; 60; 97; 61; 97] in
  map clz ss = [cL; cRLI; cR; cPDI; cLRI; cL; cPDI; cL] /\
  map (fun s => edir (sctx s)) ss = [cL; cR; cR; cR; cL; cL; cL; cR] /\
  nesting cL [] (map clz ss) = [cL; cR; cR; cR; cL; cL; cL; cL].
Proof. cbv zeta. split; [vm_compute; reflexivity|]. split; vm_compute; reflexivity. Qed.
Print Assumptions C58_adjacent_isolates_refuted.
Example C58_adjacent_isolates_ex : apart [cPDI; cLRI] = false /\ apart [cPDI; cNI; cLRI] = true.
Proof. split; reflexivity. Qed.

(* The direction of an FSI is that of the first strong character behind it (P2, P3); the code does not look. *)
Theorem C58_first_strong_refuted : map (fun s => edir (sctx s)) (scanned plain [63; 65; 61]) = [cL; cL; cL].
Proof. vm_compute. reflexivity. Qed.
Print Assumptions C58_first_strong_refuted.
Example C58_first_strong_ex : map clz (scanned plain [63; 65; 61]) = [cFSI; cR; cPDI].
Proof. vm_compute. reflexivity. Qed.

(* In texts without isolates and AL, the strong class of a scrap is the last L or R before it, and L if
   there is none. *)
Theorem C58_strong_partial :
  forall md props upper input r len rest,
    props_ok props -> lens_ok input -> total (para md props input) < 2 ^ 32 ->
    para md props input = (r, len) :: rest -> eff md props upper r <> cNSM -> simple md props upper (para md props input) ->
    exists ss, Scan md props upper None input = Ok (ss ++ [stopper]) /\
      forall u s v, ss = u ++ s :: v -> edir (sctx s) = outer md /\ dcStrong (sctx s) = last_strong cL (map clz u).
Proof. exact scan_strong. Qed.
Print Assumptions C58_strong_partial.
Example C58_strong_ex :
  simple plain tab4 noupper (para plain tab4 (bytes [65; 32; 40; 97; 48; 41; 65])) /\
  map (fun s => (clz s, dcStrong (sctx s))) (scanned plain [65; 32; 40; 97; 48; 41; 65]) =
    [(cR, cL); (cNI, cR); (cBRACKO, cR); (cL, cR); (cEN, cL); (cBRACKC, cL); (cR, cL)].
Proof.
  split; [|vm_compute; reflexivity]. split.
  - apply Forall_forall. intros c I. vm_compute in I. decompose [or] I; subst; try contradiction; split; (reflexivity || discriminate).
  - apply Forall_forall. intros c I. vm_compute in I. decompose [or] I; subst; try contradiction; reflexivity.
Qed.

(* Before the first strong character of a right-to-left paragraph the strong class is R (sos), the code
   has L; and after an AL it is R forever, whatever follows. *)
Theorem C58_strong_refuted :
  map (fun s => (clz s, dcStrong (sctx s))) (scanned right_to_left [32; 40; 97; 41]) = [(cNI, cL); (cBRACKO, cL); (cL, cL); (cBRACKC, cL)] /\
  map (fun s => (clz s, dcStrong (sctx s))) (scanned plain [37; 97; 32; 40]) = [(cR, cL); (cL, cR); (cNI, cL); (cBRACKO, cR)].
Proof. split; vm_compute; reflexivity. Qed.
Print Assumptions C58_strong_refuted.
Example C58_strong_refuted_ex : last_strong cR [cNI] = cR /\ last_strong cL [cR; cL; cNI] = cL.
Proof. split; reflexivity. Qed.

(* ---- C28 ---- *)

(* Texts without isolates and AL: the brackets that the parser finds for a bracket are those that BD16
   pairs with it, by their positions in the text. *)
Theorem C28_text_partial :
  forall md props upper input r len rest,
    props_ok props -> lens_ok input -> total (para md props input) < 2 ^ 32 ->
    para md props input = (r, len) :: rest -> eff md props upper r <> cNSM -> simple md props upper (para md props input) ->
    let bs := brackets_of md props upper cNULL 0 (para md props input) in
    Forall (fun x => eff md props upper x = cBRACKO /\ is_op x = true \/ eff md props upper x = cBRACKC /\ is_cl x = true) (map fst bs) ->
    no_mix canon13 (map fst bs) (map fst bs) -> bd_fits uax9BracketPairs canon13 [] bs = true ->
    exists ss st, Scan md props upper None input = Ok (ss ++ [stopper]) /\ ScanFinal md props upper None input = Ok st /\
      map sl (filter isbracket ss) = map snd bs /\
      forall s, In s ss -> isbracket s = true ->
        match fst (findBracket st s) with
        | Some x => In x ss /\ In (if clz s =? cBRACKO then (sl s, sl x) else (sl x, sl s)) (bd16 uax9BracketPairs canon13 [] bs)
        | None => forall q, In q (bd16 uax9BracketPairs canon13 [] bs) -> (if clz s =? cBRACKO then fst q else snd q) <> sl s
        end.
Proof. exact text_bd16. Qed.
Print Assumptions C28_text_partial.
(* a(b[c)d] *)
Example C28_text_ex :
  let bs := brackets_of plain tab4 noupper cNULL 0 (para plain tab4 (bytes [97; 40; 98; 91; 99; 41; 100; 93])) in
  bs = [(40, 1); (91, 3); (41, 5); (93, 7)] /\ bd_fits uax9BracketPairs canon13 [] bs = true /\
  bd16 uax9BracketPairs canon13 [] bs = [(1, 5)] /\ no_mix canon13 (map fst bs) (map fst bs) /\
  Forall (fun x => eff plain tab4 noupper x = cBRACKO /\ is_op x = true \/ eff plain tab4 noupper x = cBRACKC /\ is_cl x = true) (map fst bs).
Proof.
  cbv zeta. split; [vm_compute; reflexivity|]. split; [vm_compute; reflexivity|]. split; [vm_compute; reflexivity|]. split.
  - intros o c I J _ _. vm_compute in I, J. decompose [or] I; decompose [or] J; subst; try contradiction; vm_compute; intros; congruence.
  - apply Forall_forall. intros x I. vm_compute in I. decompose [or] I; subst; try contradiction; vm_compute; auto.
Qed.

(* ---- C59 ---- *)

(* Texts without isolates and AL of less than 64 KB: at an opening bracket with a partner, rule N0 is
   applied with the classes between the brackets and the strong class before them, as far as L and R are
   concerned; the closing bracket gets the same class afterwards.  Where N0 leaves the pair alone, the
   code may already give it the embedding direction, but only after a strong class of that direction.
   The strong class before the first character is that of the paragraph, before the first strong one L. *)
Theorem C59_bracket_class_partial :
  forall md props upper input r len rest,
    props_ok props -> lens_ok input -> total (para md props input) < 65536 ->
    para md props input = (r, len) :: rest -> eff md props upper r <> cNSM -> simple md props upper (para md props input) ->
    exists ss st, Scan md props upper None input = Ok (ss ++ [stopper]) /\ ScanFinal md props upper None input = Ok st /\
      forall u o t l p, ss = u ++ o :: t -> clz o = cBRACKO -> p_store p = changed st l -> nth_error (p_stack p) (p_sp p) = Some o ->
        match fst (findBracket st o) with
        | None => exists p', performRuleN0 findBracket changeBracket p = Some (p', 1) /\ p_stack p' = p_stack p /\ p_sp p' = p_sp p /\ p_store p' = p_store p
        | Some c => exists w v k p' jmp, t = w ++ c :: v /\ clz c = cBRACKC /\
            performRuleN0 findBracket changeBracket p = Some (p', jmp) /\ p_stack p' = nset (p_stack p) (p_sp p) (with_clz o k) /\ p_sp p' = p_sp p /\
            p_store p' = changed st (l ++ [with_clz o k]) /\
            (let e := outer md in
             let s := match u with [] => e | _ => last_strong cL (map clz u) end in
             let inside := map clz w in
             k = n0 e s inside \/ k = e /\ s = e /\ existsb (Z.eqb e) inside = false /\ existsb (Z.eqb (opposite e)) inside = false) /\
            exists o', fst (findBracket (p_store p') c) = Some o' /\ sl o' = sl o /\ clz o' = k
        end.
Proof. exact text_n0. Qed.
Print Assumptions C59_bracket_class_partial.
(* Left to right: A(A)a, a(A)a, and A(aA)A. *)
Example C59_bracket_class_ex :
  let res rs := spans (ResolveParagraph 300 plain tab4 noupper None (bytes rs)) in
  n0 cL cR [cR] = cR /\ n0 cL cL [cR] = cL /\ n0 cL cR [cL; cR] = cL /\ n0 cL cL [cNI] = cNI /\
  res [65; 40; 65; 41; 97] = Some [(cLRI, 0, 0); (cR, 0, 4); (cL, 4, 5); (cPDI, 5, 5)] /\
  res [97; 40; 65; 41; 97] = Some [(cLRI, 0, 0); (cL, 0, 2); (cR, 2, 3); (cL, 3, 5); (cPDI, 5, 5)] /\
  res [65; 40; 97; 65; 41; 65] = Some [(cLRI, 0, 0); (cR, 0, 1); (cL, 1, 3); (cR, 3, 4); (cL, 4, 5); (cR, 5, 6); (cPDI, 6, 6)].
Proof. cbv zeta. do 6 (split; [vm_compute; reflexivity|]). vm_compute. reflexivity. Qed.

(* Right to left, a blank and (a): the strong class before the pair is that of the paragraph, so by N0
   the brackets are R; in the code they are L. *)
Theorem C59_sos_refuted :
  spans (ResolveParagraph 300 right_to_left tab4 noupper None (bytes [32; 40; 97; 41])) = Some [(cRLI, 0, 0); (cR, 0, 1); (cL, 1, 4); (cPDI, 4, 4)] /\
  n0 cR (last_strong cR [cNI]) [cL] = cR.
Proof. split; [vm_compute; reflexivity|reflexivity]. Qed.
Print Assumptions C59_sos_refuted.
Example C59_sos_ex : spans (ResolveParagraph 300 right_to_left tab4 noupper None (bytes [40; 97; 41])) = Some [(cRLI, 0, 0); (cR, 0, 1); (cL, 1, 2); (cR, 2, 3); (cPDI, 3, 3)].
Proof. vm_compute. reflexivity. Qed.

(* Left to right, A(aA)[A]A: N0 makes the first pair L, which is then the strong class before the second
   pair, hence L; the code still looks at the A, and makes the second pair R. *)
Theorem C59_earlier_pair_refuted :
  spans (ResolveParagraph 300 plain tab4 noupper None (bytes [65; 40; 97; 65; 41; 91; 65; 93; 65])) =
    Some [(cLRI, 0, 0); (cR, 0, 1); (cL, 1, 3); (cR, 3, 4); (cL, 4, 5); (cR, 5, 9); (cPDI, 9, 9)] /\
  n0 cL (last_strong cL [cR; n0 cL cR [cL; cR]; cL; cR; n0 cL cR [cL; cR]]) [cR] = cL.
Proof. split; [vm_compute; reflexivity|reflexivity]. Qed.
Print Assumptions C59_earlier_pair_refuted.
Example C59_earlier_pair_ex : n0 cL (last_strong cL [cR; cBRACKO; cL; cR; cBRACKC]) [cR] = cR.
Proof. reflexivity. Qed.

(* An AL earlier in the text: left to right, AL a blank (A)a.  The strong class before the pair is L, the
   pair L; in the code R. *)
Theorem C59_after_AL_refuted :
  spans (ResolveParagraph 300 plain tab4 noupper None (bytes [37; 97; 32; 40; 65; 41; 97])) =
    Some [(cLRI, 0, 0); (cR, 0, 1); (cL, 1, 3); (cR, 3, 6); (cL, 6, 7); (cPDI, 7, 7)] /\
  n0 cL (last_strong cL [cR; cL; cNI]) [cR] = cL.
Proof. split; [vm_compute; reflexivity|reflexivity]. Qed.
Print Assumptions C59_after_AL_refuted.
Example C59_after_AL_ex : spans (ResolveParagraph 300 plain tab4 noupper None (bytes [65; 97; 32; 40; 65; 41; 97])) =
    Some [(cLRI, 0, 0); (cR, 0, 1); (cL, 1, 4); (cR, 4, 5); (cL, 5, 7); (cPDI, 7, 7)].
Proof. vm_compute. reflexivity. Qed.

(* A bracket without partner, and the closing bracket of a pair that N0 leaves alone, are neutral; the code
   does not ask N1 and N2 for them: A)A, A(A and a()a keep a bracket that is not resolved. *)
Theorem C59_neutral_bracket_refuted :
  let res rs := spans (ResolveParagraph 300 plain tab4 noupper None (bytes rs)) in
  res [65; 41; 65] = Some [(cLRI, 0, 0); (cR, 0, 1); (cNI, 1, 2); (cR, 2, 3); (cPDI, 3, 3)] /\
  res [65; 40; 65] = Some [(cLRI, 0, 0); (cR, 0, 1); (cBRACKO, 1, 2); (cR, 2, 3); (cPDI, 3, 3)] /\
  res [97; 40; 41; 97] = Some [(cLRI, 0, 0); (cL, 0, 2); (cNI, 2, 3); (cL, 3, 4); (cPDI, 4, 4)].
Proof. cbv zeta. split; [vm_compute; reflexivity|]. split; vm_compute; reflexivity. Qed.
Print Assumptions C59_neutral_bracket_refuted.
Example C59_neutral_bracket_ex : spans (ResolveParagraph 300 plain tab4 noupper None (bytes [65; 32; 65])) = Some [(cLRI, 0, 0); (cR, 0, 3); (cPDI, 3, 3)].
Proof. vm_compute. reflexivity. Qed.

(* Numbers count as R between brackets.  Left to right, A(0)a: the pair would be R; the code drops the
   number, and has the rest of the text twice. *)
Theorem C59_number_refuted :
  spans (ResolveParagraph 300 plain tab4 noupper None (bytes [65; 40; 48; 41; 97])) =
    Some [(cLRI, 0, 0); (cR, 0, 1); (cEN, 1, 2); (cNI, 3, 4); (cL, 4, 5); (cNI, 3, 4); (cL, 4, 5); (cPDI, 5, 5)].
Proof. vm_compute. reflexivity. Qed.
Print Assumptions C59_number_refuted.
Example C59_number_ex : map clz (scanned plain [65; 40; 48; 41; 97]) = [cR; cBRACKO; cEN; cBRACKC; cL].
Proof. vm_compute. reflexivity. Qed.

(* A mark after a bracket is treated as another bracket (W1 with the class of the scanner instead of ON), and has no partner:
   in A(^A)A and A(A)^A, where ^ is a mark, it is not resolved, although everything around it is R. *)
Theorem C59_mark_refuted :
  spans (ResolveParagraph 300 plain tab4 noupper None (bytes [65; 40; 94; 65; 41; 65])) = Some [(cLRI, 0, 0); (cR, 0, 2); (cBRACKO, 2, 3); (cR, 3, 6); (cPDI, 6, 6)] /\
  spans (ResolveParagraph 300 plain tab4 noupper None (bytes [65; 40; 65; 41; 94; 65])) = Some [(cLRI, 0, 0); (cR, 0, 4); (cNI, 4, 5); (cR, 5, 6); (cPDI, 6, 6)].
Proof. split; vm_compute; reflexivity. Qed.
Print Assumptions C59_mark_refuted.
Example C59_mark_ex : spans (ResolveParagraph 300 plain tab4 noupper None (bytes [65; 40; 65; 41; 65])) = Some [(cLRI, 0, 0); (cR, 0, 5); (cPDI, 5, 5)].
Proof. vm_compute. reflexivity. Qed.
