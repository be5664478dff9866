(* PropertiesReorder.v -- C32 to C35: reordering, splitting, run lengths, iterators. *)
From Coq Require Import List ZArith Lia Bool Permutation.
From Verif Require Import Base Scrap Reorder ReorderSpec ReorderProofs SplitProofs IterProofs.
Import ListNotations.
Open Scope Z_scope.

Definition sc c l r : scrap := mks c l r dc0 [].

(* ---- C32 ---- *)

(* Reorder never panics for a paragraph without nested isolates; the runs it delivers, read position
   by position, are the scraps with every maximal block above the embedding level reversed; adjacent
   runs have different directions, and no run is empty. *)
Theorem C32_reversal :
  forall rl, flat (lv_scraps rl) -> scraps_ok (lv_scraps rl) ->
  exists runs, Reorder rl = Some runs /\ Forall run_ok runs /\ alternating None runs /\
    let visual := rev_blocks (opp (lv_emb rl)) [] (lv_scraps rl) in
    flat_map run_view runs = attributed (fun s => dirFromClass s (outer_dir visual (lv_emb rl))) visual.
Proof. exact Reorder_flat. Qed.
Print Assumptions C32_reversal.
Definition para1 := [sc cL 0 2; sc cR 2 5; sc cEN 5 7; sc cR 7 8; sc cL 8 9].
Example C32_reversal_ex : flat para1 /\ scraps_ok para1 /\
  Reorder (mklv L2R para1) =
    Some [mkrun L2R 2 [sc cL 0 2]; mkrun R2L 1 [sc cR 7 8]; mkrun L2R 2 [sc cEN 5 7];
          mkrun R2L 3 [sc cR 2 5]; mkrun L2R 1 [sc cL 8 9]].
Proof.
  split; [repeat (constructor; [reflexivity|]); constructor|]. split; [|vm_compute; reflexivity].
  repeat (constructor; [unfold proper; cbn; lia || (repeat split; try lia; discriminate)|]). constructor.
Qed.

(* Every text position is delivered exactly once. *)
Theorem C32_once :
  forall rl runs, flat (lv_scraps rl) -> scraps_ok (lv_scraps rl) -> Reorder rl = Some runs ->
    Permutation (flat_map (fun r => positions (r_scraps r)) runs) (positions (lv_scraps rl)).
Proof. exact runs_once. Qed.
Print Assumptions C32_once.
Example C32_once_ex : positions para1 = [0; 1; 2; 3; 4; 5; 6; 7; 8].
Proof. reflexivity. Qed.

(* The order is that of rule L2 in a left-to-right paragraph, if no two number scraps are adjacent. *)
Theorem C32_rule_L2_ltr_partial :
  forall ss, numbers_apart ss -> rule_L2 L2R ss = rev_blocks (opp L2R) [] ss.
Proof. exact rule_L2_ltr. Qed.
Print Assumptions C32_rule_L2_ltr_partial.
Example C32_L2_ltr_ex : numbers_apart para1 /\
  rule_L2 L2R para1 = [sc cL 0 2; sc cR 7 8; sc cEN 5 7; sc cR 2 5; sc cL 8 9].
Proof. split; [repeat split|reflexivity]. Qed.

(* In a right-to-left paragraph it is that of rule L2, counted from the right. *)
Theorem C32_rule_L2_rtl :
  forall ss, rule_L2 R2L ss = rev (rev_blocks (opp R2L) [] ss).
Proof. exact rule_L2_rtl. Qed.
Print Assumptions C32_rule_L2_rtl.
Example C32_L2_rtl_ex : rule_L2 R2L para1 = [sc cL 8 9; sc cR 7 8; sc cEN 5 7; sc cR 2 5; sc cL 0 2].
Proof. reflexivity. Qed.

(* Adjacent European and Arabic numbers come in the wrong order. *)
Theorem C32_adjacent_numbers_refuted :
  let ss := [sc cR 0 2; sc cEN 2 3; sc cAN 3 5] in
  Reorder (mklv L2R ss) = Some [mkrun L2R 3 [sc cAN 3 5; sc cEN 2 3]; mkrun R2L 2 [sc cR 0 2]] /\
  rule_L2 L2R ss = [sc cEN 2 3; sc cAN 3 5; sc cR 0 2].
Proof. split; vm_compute; reflexivity. Qed.
Print Assumptions C32_adjacent_numbers_refuted.
Example C32_adjacent_ex : ~ numbers_apart [sc cR 0 2; sc cEN 2 3; sc cAN 3 5].
Proof. cbn. intros (_ & H & _). discriminate. Qed.

(* ---- C33 ---- *)

(* Cutting a paragraph at any ascending positions within it, any number of times, with isolates
   nested to any depth: no panic, and every line covers exactly the positions between its two cuts. *)
Theorem C33_lines_partial :
  forall n ats lo ss hi, line lo ss hi -> Forall (fun s => Forall (tree_ok n) (kids s)) ss -> cuts_in lo ats hi ->
  exists ls, cut_lines (split (S n)) ss ats = Some ls /\ lines_cover lo ats hi ls.
Proof. exact cut_paragraph. Qed.
Print Assumptions C33_lines_partial.
Definition para2 := [sc cLRI 0 0; mks cL 0 20 dc0 [[sc cRLI 4 7; sc cR 7 11; sc cPDI 11 14]]; sc cR 20 24; sc cPDI 24 24].
Example C33_lines_ex : line 0 para2 24 /\ Forall (fun s => Forall (tree_ok 1) (kids s)) para2 /\ cuts_in 0 [9; 9; 21] 24 /\
  cut_lines (split 2) para2 [9; 9; 21] =
    Some [[sc cLRI 0 0; mks cL 0 9 dc0 [[sc cRLI 4 7; sc cR 7 9]]];
          [sc cLRI 0 0; mks cL 9 9 dc0 [[sc cRLI 4 7; sc cR 9 9]]];
          [sc cLRI 0 0; mks cL 9 20 dc0 [[sc cRLI 4 7; sc cR 9 11; sc cPDI 11 14]]; sc cR 20 21];
          [sc cLRI 0 0; sc cR 21 24; sc cPDI 24 24]].
Proof.
  split; [|split; [|split; [cbn; lia|vm_compute; reflexivity]]].
  - exists [sc cLRI 0 0], (tl para2). split; [reflexivity|]. split; [cbn; lia|]. split.
    + repeat (constructor; [cbn; (discriminate || reflexivity)|]). constructor.
    + right. eexists. split; [reflexivity|]. cbn. lia.
  - constructor; [constructor|]. constructor; [|repeat constructor]. constructor; [|constructor].
    split; [discriminate|]. split; [exists 4, 14; cbn; lia|]. repeat constructor.
Qed.

(* One cut, with the shift: for paragraphs without nested isolates. *)
Theorem C33_split_flat_partial :
  forall rl lo hi at_ sh, line lo (lv_scraps rl) hi -> flat (lv_scraps rl) ->
  0 <= lo -> lo <= at_ < hi -> hi < 2 ^ 32 ->
  exists a b, Split 1 rl at_ sh = Some (a, b) /\ flat (lv_scraps a) /\ flat (lv_scraps b) /\
    line lo (lv_scraps a) at_ /\
    if sh then line 0 (lv_scraps b) (hi - at_) else line at_ (lv_scraps b) hi.
Proof. exact Split_flat. Qed.
Print Assumptions C33_split_flat_partial.
Example C33_split_flat_ex : Split 1 (mklv L2R para1) 4 true =
  Some (mklv L2R [sc cL 0 2; sc cR 2 4], mklv L2R [sc cR 0 1; sc cEN 1 3; sc cR 3 4; sc cL 4 5]).
Proof. reflexivity. Qed.

(* Splitting the empty rest of a paragraph that was cut at its end panics. *)
Theorem C33_empty_rest_refuted :
  forall n ss hi at2, line 0 ss hi -> 0 < hi ->
    split (S n) ss hi = Some (ss, []) /\ split (S n) [] at2 = None.
Proof. exact empty_rest. Qed.
Print Assumptions C33_empty_rest_refuted.
Example C33_empty_rest_ex : line 0 para1 9 /\ split 1 para1 9 = Some (para1, []).
Proof.
  split; [|reflexivity]. exists [], para1. split; [reflexivity|]. split; [cbn; lia|]. split.
  - repeat (constructor; [cbn; discriminate|]). constructor.
  - left. split; reflexivity.
Qed.

(* A position before the rest panics: the copied initiator leaves a gap. *)
Theorem C33_gap_refuted :
  let ss := [sc cLRI 0 0; sc cL 0 10; sc cPDI 10 10] in
  exists a b, split 1 ss 5 = Some (a, b) /\ split 1 b 2 = None.
Proof. eexists. eexists. split; reflexivity. Qed.
Print Assumptions C33_gap_refuted.
Example C33_gap_ex : line 0 [sc cLRI 0 0; sc cL 0 10; sc cPDI 10 10] 10.
Proof.
  exists [sc cLRI 0 0], [sc cL 0 10; sc cPDI 10 10]. split; [reflexivity|]. split; [cbn; lia|]. split.
  - repeat (constructor; [cbn; (discriminate || reflexivity)|]). constructor.
  - right. eexists. split; [reflexivity|]. cbn. lia.
Qed.

(* Isolates right of the cut stay with the first line, and vanish from the second. *)
Theorem C33_nested_refuted :
  let kid := [sc cRLI 4 7; sc cR 7 11; sc cPDI 11 14] in
  split 2 [mks cL 0 20 dc0 [kid]] 2 = Some ([mks cL 0 2 dc0 [kid]], [sc cL 2 20]) /\
  split 2 [mks cL 0 20 dc0 [kid]] 9 = (* the initiator is in both lines *)
    Some ([mks cL 0 9 dc0 [[sc cRLI 4 7; sc cR 7 9]]],
          [mks cL 9 20 dc0 [[sc cRLI 4 7; sc cR 9 11; sc cPDI 11 14]]]).
Proof. split; reflexivity. Qed.
Print Assumptions C33_nested_refuted.
Example C33_nested_ex : tree_ok 1 [sc cRLI 4 7; sc cR 7 11; sc cPDI 11 14].
Proof. split; [discriminate|]. split; [exists 4, 14; cbn; lia|]. repeat constructor. Qed.

(* With shift0 the positions of nested isolates are not lowered. *)
Theorem C33_shift_refuted :
  Split 2 (mklv L2R [sc cR 0 4; mks cL 4 20 dc0 [[sc cRLI 6 9; sc cR 9 11; sc cPDI 11 14]]]) 2 true =
    Some (mklv L2R [sc cR 0 2], mklv L2R [sc cR 0 2; mks cL 2 18 dc0 [[sc cRLI 6 9; sc cR 9 11; sc cPDI 11 14]]]).
Proof. reflexivity. Qed.
Print Assumptions C33_shift_refuted.
Example C33_shift_ex : tree_ok 1 [sc cRLI 6 9; sc cR 9 11; sc cPDI 11 14].
Proof. split; [discriminate|]. split; [exists 6, 14; cbn; lia|]. repeat constructor. Qed.

(* The lines of a right-to-left paragraph are left-to-right. *)
Theorem C33_embedding_refuted :
  forall n rl at_ sh a b, Split n rl at_ sh = Some (a, b) -> lv_emb a = L2R /\ lv_emb b = L2R.
Proof. exact split_embedding. Qed.
Print Assumptions C33_embedding_refuted.
Example C33_embedding_ex :
  let ss := [sc cL 0 2; sc cR 2 4; sc cEN 4 5] in
  Split 1 (mklv R2L (ss ++ [sc cL 5 8])) 5 false = Some (mklv L2R (ss ++ [sc cL 5 5]), mklv L2R [sc cL 5 8]) /\
  Reorder (mklv R2L ss) = Some [mkrun L2R 2 [sc cL 0 2]; mkrun R2L 2 [sc cR 2 4]; mkrun L2R 1 [sc cEN 4 5]] /\
  Reorder (mklv L2R (ss ++ [sc cL 5 5])) = Some [mkrun L2R 3 [sc cL 0 2; sc cEN 4 5]; mkrun R2L 2 [sc cR 2 4]].
Proof. split; [|split]; vm_compute; reflexivity. Qed.

(* ---- C34 ---- *)

(* The lengths add up for every paragraph without nested isolates. *)
Theorem C34_lengths_partial :
  forall rl runs, flat (lv_scraps rl) -> scraps_ok (lv_scraps rl) -> Reorder rl = Some runs ->
    fold_right Z.add 0 (map r_len runs) = fold_right Z.add 0 (map slen (lv_scraps rl)).
Proof. exact run_lengths. Qed.
Print Assumptions C34_lengths_partial.
Example C34_lengths_ex : fold_right Z.add 0 (map slen para1) = 9.
Proof. reflexivity. Qed.

(* An isolate with the direction of the text before it loses the length of its first run. *)
Theorem C34_equal_direction_refuted :
  let ss := [mks cL 0 20 dc0 [[sc cLRI 4 7; sc cR 7 11; sc cPDI 11 14]]] in
  exists runs, Reorder (mklv L2R ss) = Some runs /\ fold_right Z.add 0 (map r_len runs) = 17 /\
    fold_right Z.add 0 (map slen ss) = 20.
Proof. eexists. split; [vm_compute; reflexivity|]. split; reflexivity. Qed.
Print Assumptions C34_equal_direction_refuted.
Example C34_equal_direction_ex : tree_ok 1 [sc cLRI 4 7; sc cR 7 11; sc cPDI 11 14].
Proof. split; [discriminate|]. split; [exists 4, 14; cbn; lia|]. repeat constructor. Qed.

(* A paragraph that begins with a left-to-right isolate panics. *)
Theorem C34_leading_isolate_refuted :
  Reorder (mklv L2R [sc cLRI 0 0; mks cL 0 10 dc0 [[sc cLRI 0 3; sc cR 3 4; sc cPDI 4 7]]; sc cPDI 10 10]) = None.
Proof. vm_compute. reflexivity. Qed.
Print Assumptions C34_leading_isolate_refuted.
Example C34_leading_isolate_ex :
  exists runs, Reorder (mklv L2R [sc cLRI 0 0; mks cL 0 10 dc0 [[sc cRLI 0 3; sc cR 3 4; sc cPDI 4 7]]; sc cPDI 10 10]) = Some runs /\
    fold_right Z.add 0 (map r_len runs) = 10.
Proof. eexists. split; [vm_compute; reflexivity|reflexivity]. Qed.

(* ---- C35 ---- *)

(* Any number of iterators and any interleaving of calls: each iterator is a cursor of its own. *)
Theorem C35_independent_partial :
  forall d all cs,
    option_map snd (iruns (mkir d all []) (map of_ccall cs)) = option_map (fun x => map (of_cans d) (snd x)) (cruns all [] cs).
Proof. exact iterators_cursors. Qed.
Print Assumptions C35_independent_partial.
Example C35_independent_ex :
  option_map snd (cruns para1 [] [CNew; CNext 0; CNew; CNext 0; CNext 1; CSeg 0; CSeg 1; CEof 1]) =
  Some [XNone; XBool true; XNone; XBool true; XBool true; XSeg 2 5; XSeg 0 2; XBool false].
Proof. reflexivity. Qed.

(* The loop of a client sees every segment once, in order or in reverse order, then the end for ever. *)
Theorem C35_iteration :
  forall d all rv k,
    option_map snd (iruns (mkir d all []) (INew rv :: map of_ccall (loop_calls (length all) ++ repeat (CNext 0) k))) =
    Some (ANone :: flat_map (fun s => [ABool true; ASeg d (sl s) (sr s)]) (if rv then rev all else all)
          ++ repeat (ABool false) k).
Proof. exact iterate_all. Qed.
Print Assumptions C35_iteration.
Example C35_iteration_ex : map of_ccall (loop_calls 2 ++ repeat (CNext 0) 1) = [INext 0; ISeg 0; INext 0; ISeg 0; INext 0].
Proof. reflexivity. Qed.

(* After a first reversing iterator all iterators go backwards. *)
Theorem C35_reverse_first_partial :
  forall d all cs,
    option_map snd (iruns (mkir d all []) (INew true :: map of_ccall cs)) =
    option_map (fun x => map (of_cans d) (snd x)) (cruns (rev all) [] (CNew :: cs)).
Proof. exact reverse_first. Qed.
Print Assumptions C35_reverse_first_partial.
Example C35_reverse_first_ex :
  option_map snd (cruns (rev para1) [] [CNew; CNext 0; CSeg 0]) = Some [XNone; XBool true; XSeg 8 9].
Proof. reflexivity. Qed.

(* Creating a reversing iterator changes what the others see: here the first segment is seen twice
   by iterator 0, and the second one never. *)
Theorem C35_reverse_refuted :
  option_map snd (iruns (mkir L2R [sc cL 0 2; sc cL 4 6] [])
    [INew false; INext 0; ISeg 0; INew true; INext 0; ISeg 0]) =
  Some [ANone; ABool true; ASeg L2R 0 2; ANone; ABool true; ASeg L2R 0 2].
Proof. reflexivity. Qed.
Print Assumptions C35_reverse_refuted.
Example C35_reverse_ex :
  option_map snd (cruns [sc cL 0 2; sc cL 4 6] [] [CNew; CNext 0; CSeg 0; CNew; CNext 0; CSeg 0]) =
  Some [XNone; XBool true; XSeg 0 2; XNone; XBool true; XSeg 4 6].
Proof. reflexivity. Qed.
