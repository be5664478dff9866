(* PropertiesNested.v -- C30, C31, C33, C36, C47 for texts with isolates. *)
From Coq Require Import List ZArith Lia Bool.
From Verif Require Import Base Scrap Brackets Trie Rules RuleProofs Reorder ReorderSpec ReorderProofs SplitProofs Utf8 Scanner ScannerProofs TextScan PropertiesScanner Resolver ResolverProofs ResolverFlat ResolverText ResolverFuel PropertiesResolver Uax9Spec Uax9Text ResolverNested NestedText.
Import ListNotations.
Open Scope Z_scope.

(* A table with isolates: < LRI, > RLI, ? FSI, = PDI, and ^ a non-spacing mark. *)
Definition tab3 (r : Z) : Z * Z :=
  if r =? 60 then (cLRI, 0) else if r =? 62 then (cRLI, 0) else if r =? 63 then (cFSI, 0) else if r =? 61 then (cPDI, 0)
  else if r =? 94 then (cNSM, 0) else tab1 r.
Definition right_to_left := mkmode true false false.
(* a > a < A < A A = = a = A a 0 *)
Definition input3 := bytes [97; 62; 97; 60; 65; 60; 65; 32; 65; 61; 61; 97; 61; 65; 97; 32; 48].

(* ---- C36 ---- *)

(* The scraps are the maximal runs of equal class after W1 and W3, brackets and isolate characters alone,
   for quiet texts; isolates may be nested in any way, and need not be closed. *)
Theorem C36_isolate_classes_partial :
  forall md props upper rtl input r len rest,
    props_ok props -> lens_ok input -> total (para md props input) < 2 ^ 32 ->
    para md props input = (r, len) :: rest -> eff md props upper r <> cNSM -> (rtl = false -> m_r2l md = false) ->
    quiet rtl cL cNULL (classes_of md props upper (para md props input)) = true ->
    exists ss, Scan md props upper None input = Ok (ss ++ [stopper]) /\
      map srun ss = runs_of solo_class (combine (map norm (marked cNULL (classes_of md props upper (para md props input)))) (map snd (para md props input))).
Proof. exact scan_runs2. Qed.
Print Assumptions C36_isolate_classes_partial.
Example C36_isolate_classes_ex :
  quiet true cL cNULL (classes_of plain tab3 noupper (para plain tab3 (bytes [97; 62; 65; 94; 65; 61; 61; 97; 48; 60]))) = true /\
  match Scan plain tab3 noupper None (bytes [97; 62; 65; 94; 65; 61; 61; 97; 48; 60]) with
  | Ok ss => map srun ss = [(cL, 1); (cRLI, 1); (cR, 3); (cPDI, 1); (cPDI, 1); (cL, 1); (cEN, 1); (cLRI, 1); (cNULL, 0)]
  | _ => False
  end.
Proof. split; vm_compute; reflexivity. Qed.

(* W1 of UAX#9: a mark behind an initiator is the first character of the sequence inside, and gets the
   direction of this sequence; behind a PDI it is neutral.  So it is in the code for LRI, RLI and PDI
   (mark_of of NestedText.v), but behind an FSI the mark becomes another FSI, which has no PDI. *)
Theorem C36_mark_after_FSI_refuted :
  let scan rs := match Scan plain tab3 noupper None (bytes rs) with Ok ss => map clz ss | _ => [] end in
  scan [63; 94; 97; 61] = [cFSI; cFSI; cL; cPDI; cNULL] /\ closed 0 [cFSI; cFSI; cL; cPDI] = false.
Proof. cbv zeta. split; [vm_compute; reflexivity|reflexivity]. Qed.
Print Assumptions C36_mark_after_FSI_refuted.
Example C36_mark_after_FSI_ex :
  let scan rs := match Scan plain tab3 noupper None (bytes rs) with Ok ss => map clz ss | _ => [] end in
  scan [60; 94; 61] = [cLRI; cL; cPDI; cNULL] /\ scan [62; 94; 61] = [cRLI; cR; cPDI; cNULL] /\ scan [60; 61; 94; 97] = [cLRI; cPDI; cNI; cL; cNULL].
Proof. cbv zeta. split; [vm_compute; reflexivity|]. split; vm_compute; reflexivity. Qed.

(* ---- C30 ---- *)

(* Quiet texts with isolates, nested to any depth, every initiator with its PDI, and an initiator with k
   initiators before it followed by at least 3k+2 scraps: resolution ends without panic, receives all
   that the scanner sends, and gives scraps that tile the text; the isolates of a scrap are its
   children, each from its initiator to its PDI without gaps, in order and within their scrap, to any
   depth; and the isolate characters of the text occur in this tree once each, in order, in their places. *)
Theorem C30_nested_partial :
  forall md props upper rtl input r len rest n,
    props_ok props -> lens_ok input -> total (para md props input) < 2 ^ 32 ->
    para md props input = (r, len) :: rest -> eff md props upper r <> cNSM -> (rtl = false -> m_r2l md = false) ->
    quiet rtl cL cNULL (classes_of md props upper (para md props input)) = true ->
    closed 0 (map fst (runs_of solo_class (chars2 md props upper cNULL (para md props input)))) = true ->
    roomy 0 (map fst (runs_of solo_class (chars2 md props upper cNULL (para md props input)))) = true ->
    (rounds (S (length input)) <= n)%nat ->
    exists lv body, ResolveParagraph n md props upper None input = Ok (lv, []) /\
      tiles 0 (lv_scraps lv) (total (para md props input)) /\
      lv_scraps lv = initial md :: body ++ [mks cPDI (total (para md props input)) (total (para md props input)) dc0 []] /\
      Forall sane body /\ Forall (fun s => forest (sl s) (kids s) (sr s)) body /\
      marks body = spots 0 (chars2 md props upper cNULL (para md props input)).
Proof.
  intros md props upper rtl input r len rest n A B C D E F G H I J.
  destruct (resolve_text_nested md props upper rtl input r len rest n A B C D E F G H I J) as (lv & X & _ & Y & body & Z0). exists lv, body. tauto.
Qed.
Print Assumptions C30_nested_partial.
Example C30_nested_ex :
  let cs := map fst (runs_of solo_class (chars2 plain tab3 noupper cNULL (para plain tab3 input3))) in
  quiet true cL cNULL (classes_of plain tab3 noupper (para plain tab3 input3)) = true /\ closed 0 cs = true /\ roomy 0 cs = true /\
  spans (ResolveParagraph 300 plain tab3 noupper None input3) =
    Some [(cLRI, 0, 0); (cL, 0, 13); (cR, 13, 14); (cL, 14, 17); (cPDI, 17, 17)] /\
  match ResolveParagraph 300 plain tab3 noupper None input3 with
  | Ok (lv, _) => marks (lv_scraps lv) = (cLRI, 0, 0) :: [(cRLI, 1, 2); (cLRI, 3, 4); (cLRI, 5, 6); (cPDI, 9, 10); (cPDI, 10, 11); (cPDI, 12, 13)] ++ [(cPDI, 17, 17)]
  | _ => False
  end.
Proof. split; [vm_compute; reflexivity|]. split; [vm_compute; reflexivity|]. split; [vm_compute; reflexivity|]. split; vm_compute; reflexivity. Qed.

(* Two isolates at the end of the text: the parser takes the end of its buffer for the end of the text;
   the second PDI, and what follows it, occur twice. *)
Theorem C30_second_isolate_refuted :
  spans (ResolveParagraph 300 plain tab3 noupper None (bytes [60; 61; 60; 61; 97])) =
    Some [(cLRI, 0, 0); (cL, 0, 3); (cPDI, 3, 4); (cL, 4, 5); (cPDI, 3, 4); (cL, 4, 5); (cPDI, 5, 5)].
Proof. vm_compute. reflexivity. Qed.
Print Assumptions C30_second_isolate_refuted.
Example C30_second_isolate_ex :
  closed 0 [cLRI; cPDI; cLRI; cPDI; cL] = true /\ roomy 0 [cLRI; cPDI; cLRI; cPDI; cL] = false /\ roomy 0 [cLRI; cPDI; cL; cWS] = true.
Proof. repeat split. Qed.

(* ---- C31 ---- *)
Theorem C31_nested_partial :
  forall md props upper rtl input r len rest,
    props_ok props -> lens_ok input -> total (para md props input) < 2 ^ 32 ->
    para md props input = (r, len) :: rest -> eff md props upper r <> cNSM -> (rtl = false -> m_r2l md = false) ->
    quiet rtl cL cNULL (classes_of md props upper (para md props input)) = true ->
    closed 0 (map fst (runs_of solo_class (chars2 md props upper cNULL (para md props input)))) = true ->
    roomy 0 (map fst (runs_of solo_class (chars2 md props upper cNULL (para md props input)))) = true ->
    exists lv, forall n, (rounds (S (length input)) <= n)%nat -> ResolveParagraph n md props upper None input = Ok (lv, []).
Proof.
  intros md props upper rtl input r len rest A B C D E F G H I.
  destruct (resolve_text_nested md props upper rtl input r len rest _ A B C D E F G H I (le_n _)) as (lv & X & _).
  exists lv. intros n LE. exact (resolve_enough _ _ _ _ _ _ _ _ LE X).
Qed.
Print Assumptions C31_nested_partial.
Example C31_nested_ex : quiet false cL cNULL [cL; cLRI; cEN; cAN; cFSI; cL; cPDI; cNSM; cPDI; cEN] = true /\
  quiet true cL cNULL [cR; cRLI; cAL; cAN; cPDI; cWS; cL] = true /\ quiet true cL cNULL [cR; cRLI; cAL; cPDI; cEN] = false.
Proof. repeat split. Qed.

(* ---- C33 ---- *)

(* A resolved paragraph can be cut into lines at any ascending positions. *)
Theorem C33_resolved_lines_partial :
  forall md props upper rtl input r len rest n ats,
    props_ok props -> lens_ok input -> total (para md props input) < 2 ^ 32 ->
    para md props input = (r, len) :: rest -> eff md props upper r <> cNSM -> (rtl = false -> m_r2l md = false) ->
    quiet rtl cL cNULL (classes_of md props upper (para md props input)) = true ->
    closed 0 (map fst (runs_of solo_class (chars2 md props upper cNULL (para md props input)))) = true ->
    roomy 0 (map fst (runs_of solo_class (chars2 md props upper cNULL (para md props input)))) = true ->
    (rounds (S (length input)) <= n)%nat -> cuts_in 0 ats (total (para md props input)) ->
    exists lv d ls, ResolveParagraph n md props upper None input = Ok (lv, []) /\
      cut_lines (split d) (lv_scraps lv) ats = Some ls /\ lines_cover 0 ats (total (para md props input)) ls.
Proof.
  intros md props upper rtl input r len rest n ats A B C D E F G H I J K.
  destruct (resolve_text_nested md props upper rtl input r len rest n A B C D E F G H I J) as (lv & X & Y).
  destruct (resolved_lines md _ _ lv ats Y K) as (d & ls & Z1 & Z2). exists lv, d, ls. auto.
Qed.
Print Assumptions C33_resolved_lines_partial.
Example C33_resolved_lines_ex :
  match ResolveParagraph 300 plain tab3 noupper None input3 with
  | Ok (lv, _) => option_map (map (map (fun s => (clz s, sl s, sr s)))) (cut_lines (split 5) (lv_scraps lv) [7; 14]) =
      Some [[(cLRI, 0, 0); (cL, 0, 7)]; [(cLRI, 0, 0); (cL, 7, 13); (cR, 13, 14); (cL, 14, 14)]; [(cLRI, 0, 0); (cL, 14, 17); (cPDI, 17, 17)]]
  | _ => False
  end.
Proof. vm_compute. reflexivity. Qed.

(* ---- C47: the directions of isolates ----
   To the text around it, an isolate is a neutral (UAX#9, N1 and N2). *)

(* In a right-to-left paragraph a trailing isolate becomes left-to-right. *)
Theorem C47_isolate_direction_refuted :
  spans (ResolveParagraph 300 right_to_left tab3 noupper None (bytes [65; 60; 97; 61; 32; 65; 60; 97; 61; 32; 32])) =
    Some [(cRLI, 0, 0); (cR, 0, 6); (cL, 6, 11); (cPDI, 11, 11)] /\
  uax9 cR [cR; cON; cON; cWS; cR; cON; cON; cWS; cWS] = [cR; cR; cR; cR; cR; cR; cR; cR; cR].
Proof. split; vm_compute; reflexivity. Qed.
Print Assumptions C47_isolate_direction_refuted.
Example C47_isolate_direction_ex :
  spans (ResolveParagraph 300 right_to_left tab3 noupper None (bytes [65; 60; 97; 61; 32; 65; 32; 32; 32])) =
    Some [(cRLI, 0, 0); (cR, 0, 9); (cPDI, 9, 9)].
Proof. vm_compute. reflexivity. Qed.

(* A space and an isolate between R and R are not joined, and become left-to-right. *)
Theorem C47_isolate_neutrals_refuted :
  spans (ResolveParagraph 300 plain tab3 noupper None (bytes [65; 32; 60; 97; 61; 65; 32])) =
    Some [(cLRI, 0, 0); (cR, 0, 1); (cL, 1, 5); (cR, 5, 6); (cL, 6, 7); (cPDI, 7, 7)] /\
  uax9 cL [cR; cWS; cON; cON; cR; cWS] = [cR; cR; cR; cR; cR; cL].
Proof. split; vm_compute; reflexivity. Qed.
Print Assumptions C47_isolate_neutrals_refuted.
Example C47_isolate_neutrals_ex :
  spans (ResolveParagraph 300 plain tab3 noupper None (bytes [65; 60; 97; 61; 65; 32])) =
    Some [(cLRI, 0, 0); (cR, 0, 5); (cL, 5, 6); (cPDI, 6, 6)].
Proof. vm_compute. reflexivity. Qed.

(* A number after an isolate does not see the strong character before the isolate. *)
Theorem C47_isolate_number_refuted :
  spans (ResolveParagraph 300 plain tab3 noupper None (bytes [65; 62; 65; 61; 32; 48])) =
    Some [(cLRI, 0, 0); (cR, 0, 1); (cL, 1, 6); (cPDI, 6, 6)] /\
  uax9 cL [cR; cON; cON; cWS; cEN] = [cR; cR; cR; cR; cEN].
Proof. split; vm_compute; reflexivity. Qed.
Print Assumptions C47_isolate_number_refuted.
Example C47_isolate_number_ex : uax9 cL [cL; cON; cON; cWS; cEN] = [cL; cL; cL; cL; cL].
Proof. vm_compute. reflexivity. Qed.
