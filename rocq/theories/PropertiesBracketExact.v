(* PropertiesBracketExact.v -- C28: the pairs recorded for every text, however deep and however mixed. *)
From Coq Require Import List ZArith Lia Bool Permutation.
From Verif Require Import Base Scrap Brackets Bd16Spec BracketProofs BracketExact.
Import ListNotations.
Open Scope Z_scope.

Definition deep : list (Z * scrap) :=
  map (fun i => (40, brk_scrap cBRACKO (Z.of_nat i))) (seq 0 64) ++ [(41, brk_scrap cBRACKC 64); (9001, brk_scrap cBRACKO 65); (12297, brk_scrap cBRACKC 66)].
Lemma deep_chars : Forall bracket_char deep.
Proof.
  apply Forall_app. split.
  - apply Forall_map, Forall_forall. intros i _. left. split; [reflexivity|]. apply is_op_spec. vm_compute. reflexivity.
  - apply Forall_cons; [|apply Forall_cons; [|apply Forall_cons; [|constructor]]].
    + right. left. split; [reflexivity|]. apply is_cl_spec. vm_compute. reflexivity.
    + left. split; [reflexivity|]. apply is_op_spec. vm_compute. reflexivity.
    + right. left. split; [reflexivity|]. apply is_cl_spec. vm_compute. reflexivity.
Qed.

(* For every text the recorded pairs are those of BD16 with brackets matched by identity, except that an
   opening bracket that meets 63 open ones is skipped. *)
Theorem C28_recorded :
  forall es, Forall bracket_char es ->
    Permutation (map pview (pairs (bd16_run new_handler es))) (bd_skip uax9BracketPairs (fun x => x) [] (map view es)).
Proof. exact recorded_id. Qed.
Print Assumptions C28_recorded.
Example C28_recorded_ex : Forall bracket_char deep /\ bd_skip uax9BracketPairs (fun x => x) [] (map view deep) = [(62, 64)] /\
  bd_skip uax9BracketPairs canon13 [] (map view deep) = [(62, 64); (65, 66)].
Proof. split; [exact deep_chars|]. split; vm_compute; reflexivity. Qed.

(* Exactly when they are the pairs of BD16, without a limit on the depth: if nothing is paired behind the
   bracket at which BD16 stops. *)
Theorem C28_right_iff :
  forall es, Forall bracket_char es -> unmixed es ->
    Permutation (map pview (pairs (bd16_run new_handler es))) (bd16 uax9BracketPairs canon13 [] (map view es)) <->
    bd_late uax9BracketPairs canon13 [] (map view es) = [].
Proof. exact (right_iff canon13). Qed.
Print Assumptions C28_right_iff.
Example C28_right_iff_ex : bd_late uax9BracketPairs canon13 [] (map view (firstn 64 deep)) = [] /\ bd_late uax9BracketPairs canon13 [] (map view (firstn 65 deep)) = [(62, 64)] /\
  bd_fits uax9BracketPairs canon13 [] (map view (firstn 64 deep)) = false.
Proof. repeat split; vm_compute; reflexivity. Qed.

(* A lookup finds exactly the recorded pair of the bracket, for every text; there is at most one. *)
Theorem C28_lookup_exact :
  forall es s p, Forall bracket_char es -> ascending 0 (map view es) ->
    (exists g, find_pairing (pairs (bd16_run new_handler es)) s = Some g /\ pview g = p) <->
    In p (bd_skip uax9BracketPairs (fun x => x) [] (map view es)) /\ (if clz s =? cBRACKO then fst p else snd p) = sl s.
Proof. exact lookup_exact. Qed.
Print Assumptions C28_lookup_exact.
Example C28_lookup_exact_ex : ascending 0 (map view deep) /\ option_map pview (find_pairing (pairs (bd16_run new_handler deep)) (brk_scrap cBRACKO 62)) = Some (62, 64) /\
  find_pairing (pairs (bd16_run new_handler deep)) (brk_scrap cBRACKO 63) = None.
Proof. split; [vm_compute; intuition discriminate|]. split; vm_compute; reflexivity. Qed.

(* The recorded pairs never cross, for every text. *)
Theorem C28_recorded_nested :
  forall es, Forall bracket_char es -> ascending 0 (map view es) ->
    ForallOrdPairs nested_or_apart (map pview (pairs (bd16_run new_handler es))).
Proof.
  intros es B A. eapply FOP_perm; [exact nested_sym|symmetry; apply recorded_id, B|]. eapply skip_nested; [exact A|exact Logic.I].
Qed.
Print Assumptions C28_recorded_nested.
Example C28_recorded_nested_ex : map pview (pairs (bd16_run new_handler
  [(40, brk_scrap cBRACKO 0); (91, brk_scrap cBRACKO 1); (93, brk_scrap cBRACKC 2); (41, brk_scrap cBRACKC 3)])) = [(0, 3); (1, 2)].
Proof. vm_compute. reflexivity. Qed.
