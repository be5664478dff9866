(* PropertiesRuns.v -- C32 and C34 for paragraphs with isolates. *)
From Coq Require Import List ZArith Lia Bool Permutation.
From Verif Require Import Base Scrap Brackets Trie Rules RuleProofs Reorder ReorderSpec ReorderProofs SplitProofs NestedRunsSpec NestedRuns NestedL2 NestedLength Utf8 Scanner ScannerProofs TextScan PropertiesScanner Resolver ResolverProofs ResolverFlat ResolverText ResolverFuel PropertiesResolver Uax9Spec Uax9Text ResolverNested NestedText ScanContext PropertiesNested ResolvedRuns.
Import ListNotations.
Open Scope Z_scope.

Definition sc c l r : scrap := mks c l r dc0 [].
Local Notation mkp := NestedL2.mkp.

(* ---- C32 ---- *)
(* Paragraphs with isolates nested to any depth, in which no isolate begins in the direction of the text before it
   (fits): the runs alternate, none is empty, and position by position they are the text in the order of the
   specification: in every isolate the blocks against its direction are reversed, and an isolate against the
   direction of the text around it is reversed as a whole. *)
Theorem C32_isolates_partial :
  forall rl, let vis := arranged (lv_emb rl) (lv_scraps rl) in let o := outer_dir vis (lv_emb rl) in
    Forall node (lv_scraps rl) -> all_fit o vis L2R = true ->
    exists runs, Reorder rl = Some runs /\ Forall run_ok runs /\ alternating None runs /\ flat_map run_view runs = flat_map (view o) vis.
Proof. exact Reorder_nested. Qed.
Print Assumptions C32_isolates_partial.
(* Every position occurs once, and the lengths add up. *)
Theorem C32_isolates_once_partial :
  forall rl runs, let vis := arranged (lv_emb rl) (lv_scraps rl) in
    Forall node (lv_scraps rl) -> all_fit (outer_dir vis (lv_emb rl)) vis L2R = true -> Reorder rl = Some runs ->
    Permutation (flat_map (fun r => positions (r_scraps r)) runs) (positions (lv_scraps rl)) /\
    fold_right Z.add 0 (map r_len runs) = fold_right Z.add 0 (map slen (lv_scraps rl)).
Proof. exact nested_once. Qed.
Print Assumptions C32_isolates_once_partial.

(* L text with an RLI isolate that contains R, L text, R; then R text and a number *)
Definition iso1 : list scrap := [sc cLRI 0 0; mks cL 0 20 dc0 [[sc cRLI 4 7; sc cR 7 9; sc cL 9 11; sc cR 11 12; sc cPDI 12 15]]; sc cR 20 22; sc cEN 22 23; sc cPDI 23 23].
Ltac nodes := repeat match goal with
  | |- Forall _ [] => constructor
  | |- Forall _ (_ :: _) => constructor
  | |- node _ => constructor; cbn [kids sl sr]
  | |- proper _ => unfold proper; cbn; repeat split; (lia || discriminate)
  | |- kids_at _ [] _ => cbn; lia
  end.
Lemma closed_here f mid e : NestedRunsSpec.initiator f -> clz e = cPDI -> Forall (fun s => isisolate s = false) mid -> tiles (sl f) (f :: mid ++ [e]) (sr e) ->
  NestedRunsSpec.closed (f :: mid ++ [e]) (sl f) (sr e).
Proof. intros A B C D. exists f, mid, e, (f :: mid ++ [e]). repeat match goal with |- _ /\ _ => split end; auto. Qed.
Lemma iso1_nodes : Forall node iso1.
Proof.
  unfold iso1, sc. nodes. cbn [kids_at]. exists 4, 15. split; [|cbn; lia].
  apply (closed_here (sc cRLI 4 7) [sc cR 7 9; sc cL 9 11; sc cR 11 12] (sc cPDI 12 15)); [right; reflexivity|reflexivity|repeat (constructor; [reflexivity|]); constructor|cbn; lia].
Qed.
Example C32_isolates_ex : Forall node iso1 /\ all_fit L2R (arranged L2R iso1) L2R = true /\
  Reorder (mklv L2R iso1) = Some [mkrun L2R 4 [sc cL 0 4]; mkrun R2L 4 [sc cRLI 4 7; sc cR 11 12]; mkrun L2R 2 [sc cL 9 11]; mkrun R2L 5 [sc cR 7 9; sc cPDI 12 15];
    mkrun L2R 6 [sc cL 15 20; sc cEN 22 23]; mkrun R2L 2 [sc cR 20 22]].
Proof. split; [exact iso1_nodes|]. split; vm_compute; reflexivity. Qed.

(* If the isolates stand in text of the direction of the paragraph, have the other direction, do not contain further
   isolates, and are preceded by some text in their scrap, then the order and the directions are those of rule L2 of
   UAX#9 by the levels of the text, where the contents of an isolate are one level up.  No two number scraps are adjacent in
   left-to-right context. *)
Theorem C32_isolates_L2_partial :
  forall rl, Forall node (lv_scraps rl) -> Forall (shallow (lv_emb rl)) (lv_scraps rl) ->
    Forall (fun s => spaced (sl s) (kids s)) (lv_scraps rl) -> (lv_emb rl = L2R -> numbers_apart (lv_scraps rl)) ->
    exists runs, Reorder rl = Some runs /\ Forall run_ok runs /\ alternating None runs /\
      flat_map run_view runs = flat_map show (visual (lv_emb rl) (lv_scraps rl)).
Proof. exact Reorder_L2. Qed.
Print Assumptions C32_isolates_L2_partial.
Lemma iso1_shallow : Forall (shallow L2R) iso1.
Proof.
  unfold iso1. repeat (constructor; [split; [solve [left; cbn; auto 6|right; repeat split]|split; [try (intros H; exfalso; apply H; reflexivity); reflexivity|cbn [kids sc]; try constructor]]|]); try constructor.
  exists (sc cRLI 4 7), [sc cR 7 9; sc cL 9 11; sc cR 11 12], (sc cPDI 12 15). repeat match goal with |- _ /\ _ => split end; try reflexivity; try discriminate.
  repeat (constructor; [split; [cbn; auto 6|reflexivity]|]). constructor.
Qed.
Example C32_isolates_L2_ex : Forall (shallow L2R) iso1 /\ Forall (fun s => spaced (sl s) (kids s)) iso1 /\ numbers_apart iso1 /\
  map (fun p => (p_l p, p_r p, p_lev p)) (flat_map (pieces 0) iso1) =
    [(0, 0, 0); (0, 4, 0); (4, 7, 0); (7, 9, 1); (9, 11, 2); (11, 12, 1); (12, 15, 0); (15, 20, 0); (20, 22, 1); (22, 23, 2); (23, 23, 0)] /\
  map (fun p => (p_l p, p_r p)) (visual L2R iso1) = [(0, 0); (0, 4); (4, 7); (11, 12); (9, 11); (7, 9); (12, 15); (15, 20); (22, 23); (20, 22); (23, 23)].
Proof.
  split; [exact iso1_shallow|]. split; [repeat (constructor; [cbn; lia|]); constructor|]. split; [repeat split|]. split; vm_compute; reflexivity.
Qed.

(* An isolate in text against the direction of the paragraph: the parts of the text around it are not exchanged. *)
Theorem C32_isolate_in_R_refuted :
  let ss := [sc cL 0 2; mks cR 2 20 dc0 [[sc cLRI 4 7; sc cL 7 9; sc cPDI 9 12]]] in
  Reorder (mklv L2R ss) = Some [mkrun L2R 2 [sc cL 0 2]; mkrun R2L 2 [sc cR 2 4]; mkrun L2R 8 [sc cLRI 4 12]; mkrun R2L 8 [sc cR 12 20]] /\
  (* the levels: LRI and PDI 1, its contents 2 *)
  map (fun p => (p_l p, p_r p)) (L2 4 [mkp 0 2 0 L2R; mkp 2 4 1 R2L; mkp 4 7 1 R2L; mkp 7 9 2 L2R; mkp 9 12 1 R2L; mkp 12 20 1 R2L]) =
    [(0, 2); (12, 20); (9, 12); (7, 9); (4, 7); (2, 4)].
Proof. split; vm_compute; reflexivity. Qed.
Print Assumptions C32_isolate_in_R_refuted.
Example C32_isolate_in_R_ex : all_fit L2R (arranged L2R [sc cL 0 2; mks cR 2 20 dc0 [[sc cLRI 4 7; sc cL 7 9; sc cPDI 9 12]]]) L2R = true.
Proof. reflexivity. Qed.

(* An RLI isolate in an RLI isolate: the order within the inner one is not reversed. *)
Theorem C32_nested_isolates_refuted :
  let ss := [mks cL 0 30 dc0 [[sc cRLI 2 5; mks cL 5 20 dc0 [[sc cRLI 6 9; sc cR 9 10; sc cL 10 12; sc cPDI 12 15]]; sc cPDI 20 23]]] in
  Reorder (mklv L2R ss) = Some [mkrun L2R 2 [sc cL 0 2]; mkrun R2L 3 [sc cRLI 2 5]; mkrun L2R 1 [sc cL 5 6]; mkrun R2L 4 [sc cRLI 6 10]; mkrun L2R 2 [sc cL 10 12];
    mkrun R2L 3 [sc cPDI 12 15]; mkrun L2R 5 [sc cL 15 20]; mkrun R2L 3 [sc cPDI 20 23]; mkrun L2R 7 [sc cL 23 30]] /\
  (* the levels: 1 in the outer isolate, text of class L 2; the inner one has level 3, its text of class L 4 *)
  map (fun p => (p_l p, p_r p)) (L2 4 [mkp 0 2 0 L2R; mkp 2 5 0 L2R; mkp 5 6 2 L2R; mkp 6 9 2 L2R; mkp 9 10 3 R2L; mkp 10 12 4 L2R; mkp 12 15 2 L2R; mkp 15 20 2 L2R; mkp 20 23 0 L2R; mkp 23 30 0 L2R]) =
    [(0, 2); (2, 5); (5, 6); (6, 9); (10, 12); (9, 10); (12, 15); (15, 20); (20, 23); (23, 30)].
Proof. split; vm_compute; reflexivity. Qed.
Print Assumptions C32_nested_isolates_refuted.
Example C32_nested_isolates_ex :
  all_fit L2R (arranged L2R [mks cL 0 30 dc0 [[sc cRLI 2 5; mks cL 5 20 dc0 [[sc cRLI 6 9; sc cR 9 10; sc cL 10 12; sc cPDI 12 15]]; sc cPDI 20 23]]]) L2R = true.
Proof. reflexivity. Qed.

(* ---- C34 ---- *)
(* For every well-formed tree of isolates: the lengths add up exactly if no isolate begins in the direction of the text
   before it, none left-to-right at the very beginning. *)
Theorem C34_isolates_partial :
  forall rl, Forall node (lv_scraps rl) ->
    let vis := arranged (lv_emb rl) (lv_scraps rl) in
    (exists runs, Reorder rl = Some runs /\ fold_right Z.add 0 (map r_len runs) = fold_right Z.add 0 (map slen (lv_scraps rl))) <->
    all_fit (outer_dir vis (lv_emb rl)) vis L2R = true.
Proof. exact lengths_exact. Qed.
Print Assumptions C34_isolates_partial.
Definition iso2 : list scrap := [mks cL 0 20 dc0 [[sc cLRI 4 7; sc cR 7 11; sc cPDI 11 14]]].
Example C34_isolates_ex : Forall node iso1 /\ all_fit L2R (arranged L2R iso1) L2R = true /\ Forall node iso2 /\ all_fit L2R (arranged L2R iso2) L2R = false.
Proof.
  split; [exact iso1_nodes|]. split; [reflexivity|]. split; [|reflexivity].
  unfold iso2, sc. nodes. cbn [kids_at]. exists 4, 14. split; [|cbn; lia].
  apply (closed_here (sc cLRI 4 7) [sc cR 7 11] (sc cPDI 11 14)); [left; reflexivity|reflexivity|repeat (constructor; [reflexivity|]); constructor|cbn; lia].
Qed.
(* What is lost at such an isolate: its first run, except that the first scrap of it is seen at the end of the run
   before if it follows directly, without being counted in its length; all its other runs are kept. *)
Theorem C34_lost_run :
  forall p x xs a c f cs t, r_scraps x = xs ++ [a] -> r_scraps c = f :: cs -> r_len c <> 0 -> sl a <= sr a -> sl f <= sr f ->
    (r_dir c <> r_dir x -> appendRuns (c :: t) (p ++ [x]) = Some (p ++ [x] ++ c :: t)) /\
    (r_dir c = r_dir x -> exists x', appendRuns (c :: t) (p ++ [x]) = Some (p ++ x' :: t) /\ r_len x' = r_len x /\ r_dir x' = r_dir x /\
       positions (r_scraps x') = positions (r_scraps x) ++ (if sr a =? sl f then zrange (sl f) (sr f) else [])).
Proof. exact append_exact. Qed.
Print Assumptions C34_lost_run.
Example C34_lost_run_ex :
  appendRuns [mkrun L2R 5 [sc cLRI 6 9; sc cL 12 14]; mkrun R2L 3 [sc cR 9 12]] [mkrun L2R 4 [sc cL 0 2; sc cL 4 6]] =
  Some [mkrun L2R 4 [sc cL 0 2; sc cL 4 9]; mkrun R2L 3 [sc cR 9 12]].
Proof. reflexivity. Qed.
(* From the text: for the texts of C30_nested_partial without FSI, if in the resolved levels no isolate begins in the
   direction of the text before it, then the lengths of the runs add up to that of the text, and every position is
   delivered once. *)
Theorem C34_text_isolates_partial :
  forall md props upper rtl input r len rest n,
    props_ok props -> lens_ok input -> total (para md props input) < 2 ^ 32 ->
    para md props input = (r, len) :: rest -> eff md props upper r <> cNSM -> (rtl = false -> m_r2l md = false) ->
    quiet rtl cL cNULL (classes_of md props upper (para md props input)) = true ->
    NestedText.closed 0 (map fst (runs_of solo_class (chars2 md props upper cNULL (para md props input)))) = true ->
    roomy 0 (map fst (runs_of solo_class (chars2 md props upper cNULL (para md props input)))) = true ->
    no_fsi (spots 0 (chars2 md props upper cNULL (para md props input))) ->
    (rounds (S (length input)) <= n)%nat ->
    exists lv, ResolveParagraph n md props upper None input = Ok (lv, []) /\ Forall node (lv_scraps lv) /\
      let vis := arranged (lv_emb lv) (lv_scraps lv) in
      all_fit (outer_dir vis (lv_emb lv)) vis L2R = true ->
      exists runs, Reorder lv = Some runs /\ Forall run_ok runs /\ alternating None runs /\
        Permutation (flat_map (fun r => positions (r_scraps r)) runs) (zrange 0 (total (para md props input))) /\
        fold_right Z.add 0 (map r_len runs) = total (para md props input).
Proof.
  intros md props upper rtl input r len rest n A B C D E F G H I NF J.
  destruct (resolve_text_nested md props upper rtl input r len rest n A B C D E F G H I J) as (lv & X & R). exists lv. split; [exact X|].
  assert (T : 0 <= total (para md props input) < 2 ^ 32) by (split; [destruct R as (_ & T & _); exact (NestedRuns.tiles_le _ _ _ T)|exact C]).
  split; [now apply (resolved_nodes _ _ _ _ R T)|]. intros vis. apply (resolved_runs _ _ _ _ R T NF).
Qed.
Print Assumptions C34_text_isolates_partial.
(* a>A A=a A a, where > is RLI, = is PDI *)
Definition input5 := bytes [97; 62; 65; 32; 65; 61; 97; 32; 65; 32; 97].
Example C34_text_isolates_ex :
  let cs := map fst (runs_of solo_class (chars2 plain tab3 noupper cNULL (para plain tab3 input5))) in
  quiet true cL cNULL (classes_of plain tab3 noupper (para plain tab3 input5)) = true /\ NestedText.closed 0 cs = true /\ roomy 0 cs = true /\
  no_fsi (spots 0 (chars2 plain tab3 noupper cNULL (para plain tab3 input5))) /\
  match ResolveParagraph 300 plain tab3 noupper None input5 with
  | Ok (lv, _) => all_fit L2R (arranged L2R (lv_scraps lv)) L2R = true /\ option_map (map r_len) (Reorder lv) = Some [1; 5; 2; 1; 2]
  | _ => False
  end.
Proof.
  split; [vm_compute; reflexivity|]. split; [vm_compute; reflexivity|]. split; [vm_compute; reflexivity|]. split; [|vm_compute; auto].
  vm_compute. repeat constructor; discriminate.
Qed.
