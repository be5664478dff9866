(* PropertiesBrackets.v -- C28: bracket pairing and BD16. *)
From Coq Require Import List ZArith Lia Bool Permutation.
From Verif Require Import Base Scrap Brackets Bd16Spec BracketProofs.
Import ListNotations.
Open Scope Z_scope.

(* As long as no more than 63 brackets are open and no bracket is to be matched with a canonically
   equivalent but different character, the recorded pairs are those of BD16. *)
Theorem C28_pairs_of_BD16_partial :
  forall es, Forall bracket_char es -> unmixed es ->
    bd_fits uax9BracketPairs canon13 [] (map view es) = true ->
    Permutation (map pview (pairs (bd16_run new_handler es))) (bd16 uax9BracketPairs canon13 [] (map view es)).
Proof. exact bd16_pairs. Qed.
Print Assumptions C28_pairs_of_BD16_partial.

(* The text a(b[c)d]e of the documentation. *)
Definition doc_text : list (Z * scrap) :=
  [(97, brk_scrap cL 0); (40, brk_scrap cBRACKO 1); (98, brk_scrap cL 2); (91, brk_scrap cBRACKO 3);
   (99, brk_scrap cL 4); (41, brk_scrap cBRACKC 5); (100, brk_scrap cL 6); (93, brk_scrap cBRACKC 7)].

Example C28_ex :
  Forall bracket_char doc_text /\ unmixed doc_text /\ ascending 0 (map view doc_text) /\
  bd_fits uax9BracketPairs canon13 [] (map view doc_text) = true /\
  bd16 uax9BracketPairs canon13 [] (map view doc_text) = [(1, 5)].
Proof.
  split; [|split; [|split; [|split]]].
  - assert (L : forall r p, is_op r = false -> is_cl r = false -> bracket_char (r, brk_scrap cL p)).
    { intros r p A B. right. right. split; [reflexivity|]. cbn [fst].
      split; intros X; [apply is_op_spec in X|apply is_cl_spec in X]; congruence. }
    assert (O : forall r p, is_op r = true -> bracket_char (r, brk_scrap cBRACKO p)).
    { intros r p A. left. split; [reflexivity|]. now apply is_op_spec. }
    assert (C : forall r p, is_cl r = true -> bracket_char (r, brk_scrap cBRACKC p)).
    { intros r p A. right. left. split; [reflexivity|]. now apply is_cl_spec. }
    unfold doc_text.
    repeat (apply Forall_cons; [first [apply O; vm_compute; reflexivity | apply C; vm_compute; reflexivity
      | apply L; vm_compute; reflexivity]|]). constructor.
  - intros o c I J _ _. simpl in I, J.
    repeat match goal with H : _ \/ _ |- _ => destruct H as [<-|H] end; try contradiction;
      vm_compute; intros; congruence.
  - vm_compute. intuition discriminate.
  - vm_compute. reflexivity.
  - vm_compute. reflexivity.
Qed.

(* Even when more than 63 brackets are open, no pair of BD16 is missing. *)
Theorem C28_no_pair_missing_partial :
  forall es, Forall bracket_char es -> unmixed es ->
    incl (bd16 uax9BracketPairs canon13 [] (map view es)) (map pview (pairs (bd16_run new_handler es))).
Proof. exact bd16_superset. Qed.
Print Assumptions C28_no_pair_missing_partial.

(* Looking up a bracket finds the one pair of BD16 it belongs to, and nothing if there is none. *)
Theorem C28_bracket_found_partial :
  forall es s, Forall bracket_char es -> unmixed es ->
    bd_fits uax9BracketPairs canon13 [] (map view es) = true -> ascending 0 (map view es) ->
    match find_pairing (pairs (bd16_run new_handler es)) s with
    | Some p => In (pview p) (bd16 uax9BracketPairs canon13 [] (map view es)) /\
                (if clz s =? cBRACKO then fst (pview p) else snd (pview p)) = sl s /\
                forall q, In q (bd16 uax9BracketPairs canon13 [] (map view es)) ->
                  (if clz s =? cBRACKO then fst q else snd q) = sl s -> q = pview p
    | None => forall q, In q (bd16 uax9BracketPairs canon13 [] (map view es)) ->
                (if clz s =? cBRACKO then fst q else snd q) <> sl s
    end.
Proof. exact bd16_found. Qed.
Print Assumptions C28_bracket_found_partial.
Example C28_found_ex :
  option_map pview (find_pairing (pairs (bd16_run new_handler doc_text)) (brk_scrap cBRACKC 5)) = Some (1, 5) /\
  find_pairing (pairs (bd16_run new_handler doc_text)) (brk_scrap cBRACKO 3) = None.
Proof. split; vm_compute; reflexivity. Qed.

(* The pairs of BD16 are nested or apart; no position belongs to two pairs. *)
Theorem C28_pairs_nested :
  forall table canon txt, ascending 0 txt -> ForallOrdPairs nested_or_apart (bd16 table canon [] txt).
Proof. intros table canon txt A. exact (bd16_nested table canon [] txt 0 A I). Qed.
Print Assumptions C28_pairs_nested.
Example C28_nested_ex : ascending 0 [(40, 0); (91, 1); (93, 2); (41, 3)] /\
  bd16 uax9BracketPairs canon13 [] [(40, 0); (91, 1); (93, 2); (41, 3)] = [(1, 2); (0, 3)].
Proof. split; [cbn; lia|vm_compute; reflexivity]. Qed.

(* 64 opening brackets and a closing one: BD16 stops at the 64th, the code just skips it. *)
Theorem C28_overflow_refuted :
  exists es, Forall bracket_char es /\ unmixed es /\
    bd16 uax9BracketPairs canon13 [] (map view es) = [] /\ map pview (pairs (bd16_run new_handler es)) = [(62, 64)].
Proof.
  exists (map (fun i => (40, brk_scrap cBRACKO (Z.of_nat i))) (seq 0 64) ++ [(41, brk_scrap cBRACKC 64)]).
  split; [|split; [|split]].
  - apply Forall_app. split.
    + apply Forall_map. apply Forall_forall. intros i _. left. split; [reflexivity|].
      apply is_op_spec. vm_compute. reflexivity.
    + constructor; [|constructor]. right. left. split; [reflexivity|]. apply is_cl_spec. vm_compute. reflexivity.
  - intros o c I J O C.
    assert (o = 40 \/ o = 41) as O'.
    { rewrite map_app, map_map in I. apply in_app_or in I. destruct I as [I|[<-|[]]]; [|right; reflexivity].
      apply in_map_iff in I. destruct I as (? & <- & _). left. reflexivity. }
    assert (c = 40 \/ c = 41) as C'.
    { rewrite map_app, map_map in J. apply in_app_or in J. destruct J as [J|[<-|[]]]; [|right; reflexivity].
      apply in_map_iff in J. destruct J as (? & <- & _). left. reflexivity. }
    destruct O' as [-> | ->], C' as [-> | ->]; vm_compute; intros; congruence.
  - vm_compute. reflexivity.
  - vm_compute. reflexivity.
Qed.
Print Assumptions C28_overflow_refuted.

(* U+2329 is canonically equivalent to U+3008, whose partner is U+3009: BD16 pairs U+2329 with
   U+3009, the code does not. *)
Theorem C28_canonical_equivalence_refuted :
  exists es, Forall bracket_char es /\ bd_fits uax9BracketPairs canon13 [] (map view es) = true /\
    bd16 uax9BracketPairs canon13 [] (map view es) = [(0, 3)] /\ pairs (bd16_run new_handler es) = [].
Proof.
  exists [(9001, brk_scrap cBRACKO 0); (12297, brk_scrap cBRACKC 3)]. split; [|split; [|split]].
  - apply Forall_cons; [|apply Forall_cons; [|constructor]].
    + left. split; [reflexivity|]. apply is_op_spec. vm_compute. reflexivity.
    + right. left. split; [reflexivity|]. apply is_cl_spec. vm_compute. reflexivity.
  - vm_compute. reflexivity.
  - vm_compute. reflexivity.
  - vm_compute. reflexivity.
Qed.
Print Assumptions C28_canonical_equivalence_refuted.

(* BD16 sorts the pairs by the position of the opening bracket; the code tries to, but ()() comes
   out in the wrong order.  (No other code depends on the order.) *)
Theorem C28_order_refuted :
  exists es, map pview (pairs (bd16_run new_handler es)) = [(2, 3); (0, 1)].
Proof.
  exists [(40, brk_scrap cBRACKO 0); (41, brk_scrap cBRACKC 1); (40, brk_scrap cBRACKO 2); (41, brk_scrap cBRACKC 3)].
  vm_compute. reflexivity.
Qed.
Print Assumptions C28_order_refuted.
