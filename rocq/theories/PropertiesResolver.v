(* PropertiesResolver.v -- C30: the resolved runs cover the paragraph; C31: resolution terminates. *)
From Coq Require Import List ZArith Lia Bool Permutation.
From Verif Require Import Base Scrap Brackets Trie Rules RuleProofs Reorder ReorderSpec ReorderProofs Utf8 Scanner ScannerProofs TextScan PropertiesScanner Resolver ResolverProofs ResolverFlat ResolverText ResolverFuel ResolverRefuted.
Import ListNotations.
Open Scope Z_scope.

(* For every paragraph without isolates whose first character is not a non-spacing mark, with European
   numbers only in left-to-right context, and with Arabic numbers only in a text without R and AL
   (rtl = false, a left-to-right paragraph) or directly after a character that is not neutral
   (rtl = true): resolution terminates without panic, receives everything that the scanner sends, and
   the resolved scraps tile the paragraph from its first to its last byte. *)
Theorem C30_covers_partial :
  forall md props upper rtl input r len rest n,
    props_ok props -> lens_ok input -> total (para md props input) < 2 ^ 32 ->
    para md props input = (r, len) :: rest -> eff md props upper r <> cNSM -> (rtl = false -> m_r2l md = false) ->
    calm rtl cL cNULL (classes_of md props upper (para md props input)) = true ->
    (rounds (S (length input)) <= n)%nat ->
    exists lv, ResolveParagraph n md props upper None input = Ok (lv, []) /\
      tiles 0 (lv_scraps lv) (total (para md props input)) /\ flat (lv_scraps lv).
Proof.
  intros md props upper rtl input r len rest n A B C D E F G H.
  destruct (resolve_text md props upper rtl input r len rest n A B C D E F G H) as (lv & X & _ & _ & Y). eauto.
Qed.
Print Assumptions C30_covers_partial.

Definition bytes (rs : list Z) : list (Z * Z) := map (fun r => (r, 1)) rs.
Definition spans (x : res (levels * list scrap)) : option (list (Z * Z * Z)) :=
  match x with Ok (lv, _) => Some (map (fun s => (clz s, sl s, sr s)) (lv_scraps lv)) | _ => None end.
Definition input1 := bytes [97; 32; 48; 40; 65; 32; 65; 41; 97].
Example C30_covers_ex :
  para plain tab1 input1 = (97, 1) :: bytes [32; 48; 40; 65; 32; 65; 41; 97] /\ lens_ok input1 /\
  calm true cL cNULL (classes_of plain tab1 noupper (para plain tab1 input1)) = true /\
  spans (ResolveParagraph (rounds 10) plain tab1 noupper None input1) =
    Some [(cLRI, 0, 0); (cL, 0, 4); (cR, 4, 7); (cL, 7, 9); (cPDI, 9, 9)].
Proof.
  split; [reflexivity|]. split; [repeat (constructor; [discriminate|]); constructor|]. split; [reflexivity|].
  vm_compute. reflexivity.
Qed.


(* The runs delivered by Reorder cover every byte position of the paragraph exactly once. *)
Theorem C30_runs_partial :
  forall md props upper rtl input r len rest n,
    props_ok props -> lens_ok input -> total (para md props input) < 2 ^ 32 ->
    para md props input = (r, len) :: rest -> eff md props upper r <> cNSM -> (rtl = false -> m_r2l md = false) ->
    calm rtl cL cNULL (classes_of md props upper (para md props input)) = true ->
    (rounds (S (length input)) <= n)%nat ->
    exists lv runs, ResolveParagraph n md props upper None input = Ok (lv, []) /\
      positions (lv_scraps lv) = zrange 0 (total (para md props input)) /\
      Reorder lv = Some runs /\
      Permutation (flat_map (fun r => positions (r_scraps r)) runs) (zrange 0 (total (para md props input))).
Proof.
  intros md props upper rtl input r len rest n A B C D E F G H.
  destruct (resolve_text md props upper rtl input r len rest n A B C D E F G H) as (lv & X & Y).
  destruct (resolved_runs md _ lv Y C) as (runs & R1 & _ & _ & R2). exists lv, runs. split; auto.
  split; [apply tiles_positions; apply Y|auto].
Qed.
Print Assumptions C30_runs_partial.
Example C30_runs_ex :
  match ResolveParagraph (rounds 10) plain tab1 noupper None input1 with
  | Ok (lv, _) => match Reorder lv with
                  | Some runs => map (fun r => (r_dir r, positions (r_scraps r))) runs =
                      [(L2R, [0; 1; 2; 3]); (R2L, [4; 5; 6]); (L2R, [7; 8])]
                  | None => False
                  end
  | _ => False
  end.
Proof. vm_compute. reflexivity. Qed.

(* A number after right-to-left letters and a blank is lost: the text of three bytes is covered up to
   position 2 only, and the blank is taken for the number. *)
Theorem C30_number_lost_refuted :
  spans (ResolveParagraph 100 plain tab1 noupper None (bytes [65; 32; 48])) =
    Some [(cLRI, 0, 0); (cR, 0, 1); (cEN, 1, 2); (cPDI, 2, 2)].
Proof. vm_compute. reflexivity. Qed.
Print Assumptions C30_number_lost_refuted.
Example C30_number_lost_ex : total (para plain tab1 (bytes [65; 32; 48])) = 3.
Proof. reflexivity. Qed.

(* The same with Arabic letters and Arabic digits; in the middle of a text a gap is left. *)
Definition tab2 (r : Z) : Z * Z :=
  if r =? 1575 then (cAL, 0) else if r =? 1632 then (cAN, 0) else if r =? 32 then (cWS, 0) else (cL, 0).
Theorem C30_arabic_number_lost_refuted :
  spans (ResolveParagraph 200 (mkmode true false false) tab2 noupper None
           [(1575, 2); (1575, 2); (32, 1); (1632, 2); (1632, 2); (32, 1); (1575, 2)]) =
    Some [(cRLI, 0, 0); (cR, 0, 4); (cAN, 4, 5); (cR, 9, 12); (cPDI, 12, 12)].
Proof. vm_compute. reflexivity. Qed.
Print Assumptions C30_arabic_number_lost_refuted.
Example C30_arabic_ex : ScanRunes (encode [1575; 1575; 32; 1632; 1632; 32; 1575]) =
  [(1575, 2); (1575, 2); (32, 1); (1632, 2); (1632, 2); (32, 1); (1575, 2)].
Proof. vm_compute. reflexivity. Qed.

(* An empty isolate at the end of the text: its PDI occurs twice. *)
Theorem C30_isolate_doubled_refuted :
  spans (ResolveParagraph 200 plain tab1 noupper None [(97, 1); (8294, 3); (8297, 3)]) =
    Some [(cLRI, 0, 0); (cL, 0, 4); (cPDI, 4, 7); (cPDI, 4, 7); (cPDI, 7, 7)].
Proof. vm_compute. reflexivity. Qed.
Print Assumptions C30_isolate_doubled_refuted.
Example C30_doubled_ex : ScanRunes (encode [97; 8294; 8297]) = [(97, 1); (8294, 3); (8297, 3)].
Proof. vm_compute. reflexivity. Qed.

(* A PDI without initiator ends the text: what follows its lookahead is never read. *)
Theorem C30_unmatched_PDI_refuted :
  exists lv extra,
    ResolveParagraph 200 plain tab1 noupper None (bytes [97; 8297; 97; 65; 97; 65; 97]) = Ok (lv, extra) /\
    map (fun s => (clz s, sl s, sr s)) (lv_scraps lv) =
      [(cLRI, 0, 0); (cL, 0, 1); (cPDI, 1, 2); (cL, 2, 3); (cR, 3, 4); (cPDI, 4, 4)] /\
    map clz extra = [cL; cR; cL; cNULL].
Proof. eexists _, _. split; [vm_compute; reflexivity|]. split; reflexivity. Qed.
Print Assumptions C30_unmatched_PDI_refuted.
Example C30_unmatched_PDI_ex : total (para plain tab1 (bytes [97; 8297; 97; 65; 97; 65; 97])) = 7.
Proof. reflexivity. Qed.

(* ---- C31 ---- *)

(* Termination for the texts of C30: a number of rounds that is quadratic in the length of the text
   suffices, and there is no panic.  The result does not depend on the bound. *)
Theorem C31_terminates_partial :
  forall md props upper rtl input r len rest,
    props_ok props -> lens_ok input -> total (para md props input) < 2 ^ 32 ->
    para md props input = (r, len) :: rest -> eff md props upper r <> cNSM -> (rtl = false -> m_r2l md = false) ->
    calm rtl cL cNULL (classes_of md props upper (para md props input)) = true ->
    exists lv, forall n, (rounds (S (length input)) <= n)%nat -> ResolveParagraph n md props upper None input = Ok (lv, []).
Proof.
  intros md props upper rtl input r len rest A B C D E F G.
  destruct (resolve_text md props upper rtl input r len rest _ A B C D E F G (le_n _)) as (lv & X & _).
  exists lv. intros n LE. exact (resolve_enough _ _ _ _ _ _ _ _ LE X).
Qed.
Print Assumptions C31_terminates_partial.
Example C31_terminates_ex : calm true cL cNULL (classes_of plain tab1 noupper input1) = true /\
  calm false cL cNULL [cL; cWS; cEN; cCS; cEN; cAN; cWS; cAN; cNSM; cBRACKO; cL] = true.
Proof. split; reflexivity. Qed.

(* A number after right-to-left letters, followed by a second one: no number of rounds suffices. *)
Definition input2 := bytes [65; 32; 48; 32; 48].
Theorem C31_diverges_refuted :
  forall n, ResolveParagraph n plain tab1 noupper None input2 = NoFuel.
Proof.
  intros n. unfold ResolveParagraph. rewrite prepared. cbn [rbind].
  assert (exists s, ScanFinal plain tab1 noupper None input2 = Ok s) as [s ->] by (eexists; vm_compute; reflexivity).
  set (ss := Scan _ _ _ _ _). vm_compute in ss. subst ss. cbn [rbind].
  unfold ResolveLevels. destruct n as [|n]; [reflexivity|]. rewrite parseIRS_eq.
  cbv zeta. set (q := with_sp _ _). remember (read 3 q) as rd eqn:ER. vm_compute in ER. subst rd. clear q.
  do 4 (destruct n as [|n]; [vm_compute; reflexivity|]).
  set (p1 := mkp _ 1 _ _ _ _).
  set (c := mkdc 0 1 0 0).
  set (p2 := mkp [mks 21 0 0 (mkdc 0 0 0 0) []; mks 1 0 1 (mkdc 0 0 0 0) []; mks 27 1 2 c []; mks 2 2 3 c []; mks 27 3 4 c []; mks 2 4 5 c []]
               3 false [mks 999 0 0 (mkdc 0 0 0 0) []] 1 s).
  assert (E : pass1_loop the_trie the_tab findBracket changeBracket (S (S (S (S n)))) 1 false None p1 =
              pass1_loop the_trie the_tab findBracket changeBracket n 1 false None p2) by (destruct n; reflexivity).
  rewrite E, (number_loop findBracket changeBracket n p2 (firstn 3 (p_stack p2)) (mks 2 2 3 c []) (mks 27 3 4 c []) (mks 2 4 5 c [])); auto.
  - repeat split; discriminate.
  - cbn. lia.
Qed.
Print Assumptions C31_diverges_refuted.
Example C31_diverges_ex : classes_of plain tab1 noupper (para plain tab1 input2) = [cR; cWS; cEN; cWS; cEN].
Proof. reflexivity. Qed.
