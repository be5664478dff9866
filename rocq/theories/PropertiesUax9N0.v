(* PropertiesUax9N0.v -- C47 for texts with brackets: the resolved classes are those of UAX#9 with rule N0. *)
From Coq Require Import List ZArith Lia Bool.
From Verif Require Import Base Scrap Brackets Bd16Spec BracketProofs Reorder ReorderSpec ReorderProofs Scanner ScannerProofs TextScan PropertiesScanner Resolver PropertiesResolver ResolverFlat ResolverText NestedText PropertiesNested Uax9Spec Uax9N0Spec ScanContext BracketText PropertiesContext Uax9BracketText.
Import ListNotations.
Open Scope Z_scope.

(* For every paragraph of less than 64 KB in which the classes L, R, S, WS, ON, NSM and those of brackets
   occur, the first one not being NSM, and no NSM directly after a bracket; in which every bracket is in a
   pair of BD16 (no two pairs being equal up to canonical equivalence only, and no more than 63 levels) that N0 gives a class to, the class which the code
   computes ([settled], Uax9BracketText.v); and in which the neutrals before brackets get the direction of
   the embedding ([quiet]): every byte gets the class which the rules W1 to W7, N0, N1 and N2 give to its
   character. *)
Theorem C47_brackets_partial :
  forall md props upper input r len rest n,
    props_ok props -> lens_ok input -> total (para md props input) < 65536 ->
    para md props input = (r, len) :: rest -> eff md props upper r <> cNSM ->
    Forall (fun c => In c [cNSM; cL; cR; cS; cWS; cON; cBRACKO; cBRACKC]) (classes_of md props upper (para md props input)) ->
    Forall (fun x => 0 < snd x) (para md props input) ->
    let cs := classes_of md props upper (para md props input) in
    let lens := map snd (para md props input) in
    let bs := brackets_of md props upper cNULL 0 (para md props input) in
    let pairs := bd16 uax9BracketPairs canon13 [] bs in
    Forall (fun x => eff md props upper x = cBRACKO /\ is_op x = true \/ eff md props upper x = cBRACKC /\ is_cl x = true) (map fst bs) ->
    no_mix canon13 (map fst bs) (map fst bs) -> bd_fits uax9BracketPairs canon13 [] bs = true ->
    settled (outer md) (combine (weak_rules (outer md) cs) (starts 0 lens)) pairs = true ->
    quiet (outer md) (weak_rules (outer md) cs) (uax9_full (outer md) cs (starts 0 lens) pairs) = true ->
    (rounds (S (length input)) <= n)%nat ->
    exists lv, ResolveParagraph n md props upper None input = Ok (lv, []) /\
      flat_map (fun s => repeat (clz s) (Z.to_nat (sr s - sl s))) (lv_scraps lv) =
        spread (uax9_full (outer md) cs (starts 0 lens) pairs) lens.
Proof.
  intros md props upper input r len rest n A B C D E F G cs lens bs pairs H I J K L M.
  destruct (resolve_uax9_brackets md props upper input r len rest n A B C D E F G H I J K L M) as (lv & X & _ & Y & _). eauto.
Qed.
Print Assumptions C47_brackets_partial.

(* The runs for these paragraphs. *)
Theorem C47_bracket_runs_partial :
  forall md props upper input r len rest n,
    props_ok props -> lens_ok input -> total (para md props input) < 65536 ->
    para md props input = (r, len) :: rest -> eff md props upper r <> cNSM ->
    Forall (fun c => In c [cNSM; cL; cR; cS; cWS; cON; cBRACKO; cBRACKC]) (classes_of md props upper (para md props input)) ->
    Forall (fun x => 0 < snd x) (para md props input) ->
    let cs := classes_of md props upper (para md props input) in
    let lens := map snd (para md props input) in
    let bs := brackets_of md props upper cNULL 0 (para md props input) in
    let pairs := bd16 uax9BracketPairs canon13 [] bs in
    Forall (fun x => eff md props upper x = cBRACKO /\ is_op x = true \/ eff md props upper x = cBRACKC /\ is_cl x = true) (map fst bs) ->
    no_mix canon13 (map fst bs) (map fst bs) -> bd_fits uax9BracketPairs canon13 [] bs = true ->
    settled (outer md) (combine (weak_rules (outer md) cs) (starts 0 lens)) pairs = true ->
    quiet (outer md) (weak_rules (outer md) cs) (uax9_full (outer md) cs (starts 0 lens) pairs) = true ->
    (rounds (S (length input)) <= n)%nat ->
    exists lv runs, ResolveParagraph n md props upper None input = Ok (lv, []) /\ Reorder lv = Some runs /\
      Forall run_ok runs /\ alternating None runs /\
      flat_map run_view runs = combine (zrange 0 (total (para md props input)))
        (map (fun c => c =? cR) (spread (uax9_full (outer md) cs (starts 0 lens) pairs) lens)).
Proof. exact runs_uax9_brackets. Qed.
Print Assumptions C47_bracket_runs_partial.

(* The text a (bA[A])A a with single bytes, in the table of PropertiesContext.v. *)
Definition text0 : list Z := [97; 32; 40; 98; 65; 91; 65; 93; 41; 65; 32; 97].
Definition classes0 (md : mode) (rs : list Z) : list Z := classes_of md tab4 noupper (para md tab4 (bytes rs)).
Definition pairs0 (md : mode) (rs : list Z) : list (Z * Z) := bd16 uax9BracketPairs canon13 [] (brackets_of md tab4 noupper cNULL 0 (para md tab4 (bytes rs))).
Definition full0 (md : mode) (rs : list Z) : list Z := uax9_full (outer md) (classes0 md rs) (starts 0 (map snd (bytes rs))) (pairs0 md rs).
Definition settled0 (md : mode) (rs : list Z) : bool := settled (outer md) (combine (weak_rules (outer md) (classes0 md rs)) (starts 0 (map snd (bytes rs)))) (pairs0 md rs).
Definition quiet0 (md : mode) (rs : list Z) : bool := quiet (outer md) (weak_rules (outer md) (classes0 md rs)) (full0 md rs).
Definition final0 (md : mode) (rs : list Z) : option (list Z) :=
  match ResolveParagraph (rounds (S (length rs))) md tab4 noupper None (bytes rs) with
  | Ok (lv, _) => Some (flat_map (fun s => repeat (clz s) (Z.to_nat (sr s - sl s))) (lv_scraps lv))
  | _ => None
  end.
Example C47_brackets_ex :
  let bs := brackets_of plain tab4 noupper cNULL 0 (para plain tab4 (bytes text0)) in
  classes0 plain text0 = [cL; cWS; cBRACKO; cL; cR; cBRACKO; cR; cBRACKC; cBRACKC; cR; cWS; cL] /\
  pairs0 plain text0 = [(5, 7); (2, 8)] /\ settled0 plain text0 = true /\ quiet0 plain text0 = true /\
  bd_fits uax9BracketPairs canon13 [] bs = true /\ no_mix canon13 (map fst bs) (map fst bs) /\
  Forall (fun x => eff plain tab4 noupper x = cBRACKO /\ is_op x = true \/ eff plain tab4 noupper x = cBRACKC /\ is_cl x = true) (map fst bs) /\
  full0 plain text0 = [cL; cL; cL; cL; cR; cR; cR; cR; cL; cR; cL; cL] /\ final0 plain text0 = Some (full0 plain text0).
Proof.
  cbv zeta. split; [vm_compute; reflexivity|]. split; [vm_compute; reflexivity|]. split; [vm_compute; reflexivity|]. split; [vm_compute; reflexivity|].
  split; [vm_compute; reflexivity|]. split.
  { intros o c I J _ _. vm_compute in I, J. decompose [or] I; decompose [or] J; subst; try contradiction; vm_compute; intros; congruence. }
  split.
  { apply Forall_forall. intros x I. vm_compute in I. decompose [or] I; subst; try contradiction; vm_compute; auto. }
  split; vm_compute; reflexivity.
Qed.
(* Right to left: A (a) b[ab]A. *)
Example C47_bracket_runs_ex :
  let rs := [65; 32; 40; 97; 41; 32; 98; 91; 97; 98; 93; 65] in
  settled0 right_to_left rs = true /\ quiet0 right_to_left rs = true /\
  full0 right_to_left rs = [cR; cR; cR; cL; cR; cR; cL; cL; cL; cL; cL; cR] /\
  match ResolveParagraph (rounds 13) right_to_left tab4 noupper None (bytes rs) with
  | Ok (lv, _) => match Reorder lv with
                  | Some runs => map (fun r => (r_dir r, r_len r)) runs = [(R2L, 3); (L2R, 1); (R2L, 2); (L2R, 5); (R2L, 1)]
                  | None => False
                  end
  | _ => False
  end.
Proof. cbv zeta. split; [vm_compute; reflexivity|]. split; [vm_compute; reflexivity|]. split; vm_compute; reflexivity. Qed.

(* Left to right, A (A): by N0 the brackets are R, and by N1 the blank before them; the code has resolved the
   blank by N2 when it comes to the bracket. *)
Theorem C47_before_bracket_refuted :
  final0 plain [65; 32; 40; 65; 41] = Some [cR; cL; cR; cR; cR] /\ full0 plain [65; 32; 40; 65; 41] = [cR; cR; cR; cR; cR].
Proof. split; vm_compute; reflexivity. Qed.
Print Assumptions C47_before_bracket_refuted.
Example C47_before_bracket_ex :
  settled0 plain [65; 32; 40; 65; 41] = true /\ quiet0 plain [65; 32; 40; 65; 41] = false /\
  quiet0 plain [65; 40; 65; 41] = true /\ final0 plain [65; 40; 65; 41] = Some (full0 plain [65; 40; 65; 41]).
Proof. split; [vm_compute; reflexivity|]. split; [vm_compute; reflexivity|]. split; vm_compute; reflexivity. Qed.
