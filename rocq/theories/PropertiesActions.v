(* PropertiesActions.v -- C29: the rules of the dictionary are those of UAX#9; C48: what the application of a
   rule does to the stack. *)
From Coq Require Import List ZArith Lia Bool.
From Verif Require Import Base Scrap Trie Rules RuleProofs Reorder ReorderSpec Resolver ResolverProofs RuleSpec RuleSpecProofs.
Import ListNotations.
Open Scope Z_scope.

(* ---- C29 ---- *)

(* For every sequence of classes: there is a rule with this left-hand side exactly if UAX#9 has a rule for
   it, and it is named after the same section. *)
Theorem C29_sheet :
  forall w, Forall is_class w -> option_map section_of (rule_for all_rules w) = governs w.
Proof. exact sheet. Qed.
Print Assumptions C29_sheet.
Example C29_sheet_ex : governs [cEN; cES; cEN] = Some sW4 /\ governs [cAN; cES; cAN] = None /\ governs [cEN; cNI; cR] = Some sN1 /\
  governs [cL; cNI; cR] = None.
Proof. repeat split; reflexivity. Qed.

(* The dictionary finds it, except for four sequences of N1. *)
Theorem C29_found_section_partial :
  forall w, Forall is_class w ->
    ~ In w [[cAN; cNI; cR]; [cAN; cNI; cAN]; [cEN; cNI; cR]; [cEN; cNI; cAN]] ->
    exists r, lookup the_trie the_tab w = Ok r /\ option_map section_of r = governs w /\ (forall x, r = Some x -> lhs x = w).
Proof. exact found_section. Qed.
Print Assumptions C29_found_section_partial.
Example C29_found_section_ex : lookup the_trie the_tab [cEN; cNI; cEN] = Ok (Some N1_10) /\ governs [cEN; cNI; cEN] = Some sN1.
Proof. split; vm_compute; reflexivity. Qed.

Theorem C29_lost_section_refuted :
  forall w, In w [[cAN; cNI; cR]; [cAN; cNI; cAN]; [cEN; cNI; cR]; [cEN; cNI; cAN]] ->
    governs w = Some sN1 /\ lookup the_trie the_tab w = Ok None.
Proof. exact lost_section. Qed.
Print Assumptions C29_lost_section_refuted.
Example C29_lost_section_ex : rewritten sN1 cL cL [cEN; cNI; cR] = [cEN; cR; cR].
Proof. reflexivity. Qed.

(* ---- C48 ---- *)

(* W4 to W6, N1 between letters, N2, the joining of equal classes, and W7 in left-to-right context: the
   scraps [m] at the stack pointer are replaced by one scrap, which gives every position of [m] the class
   that UAX#9 gives it; the context and the isolates are kept, and nothing else changes. *)
Theorem C48_faithful_partial :
  forall (store : Type) (p : pst store) r pre m rest lo hi start low,
    In r [W4_1; W4_2; W4_3; W5_1; W5_2; W6_1; W6_2; W6_3; W6x; N1_1; N1_2; N2; LL; RR] \/
      r = W7 /\ dcContext (sctx (hd scrap0 m)) = cL ->
    p_stack p = pre ++ m ++ rest -> p_sp p = length pre -> map clz m = lhs r -> tiles lo m hi -> (start <= length pre)%nat ->
    exists p' x, apply_rule p r start low = Ok p' /\ p_stack p' = pre ++ x :: rest /\
      attributed clz [x] = attributed_as (rewritten (section_of r) (se (hd scrap0 m)) (dcContext (sctx (hd scrap0 m))) (lhs r)) m /\
      sctx x = sctx (hd scrap0 m) /\ kids x = flat_map kids m /\
      p_eof p' = p_eof p /\ p_pipe p' = p_pipe p /\ p_depth p' = p_depth p /\ p_store p' = p_store p.
Proof. exact @rule_faithful. Qed.
Print Assumptions C48_faithful_partial.

Definition sc48 (c l r : Z) : scrap := mks c l r (sctx scrap0) [].
Definition p48 (ss : list scrap) : pst unit := mkp ss 0 false [] 0 tt.
Definition after48 (r : rule) (ss : list scrap) : option (list (Z * Z * Z)) :=
  match apply_rule (p48 ss) r 0 0 with
  | Ok p => Some (map (fun s => (clz s, sl s, sr s)) (p_stack p))
  | _ => None
  end.
Example C48_faithful_ex :
  let m := [sc48 cEN 3 5; sc48 cCS 5 6; sc48 cEN 6 9] in
  map clz m = lhs W4_2 /\ tiles 3 m 9 /\ after48 W4_2 (m ++ [sc48 cNI 9 10]) = Some [(cEN, 3, 9); (cNI, 9, 10)] /\
  attributed_as (rewritten sW4 cL cL (lhs W4_2)) m = map (fun p => (p, cEN)) [3; 4; 5; 6; 7; 8].
Proof. repeat split; try (cbn; lia); vm_compute; reflexivity. Qed.

(* W7 outside of left-to-right context, and N1 with the neutral becoming R: the classes are right, but the
   scraps behind occur twice. *)
Theorem C48_doubles_refuted :
  forall (store : Type) (p : pst store) r pre m rest start low,
    In r [N1_6; N1_7; N1_9; N1_10] \/ r = W7 /\ dcContext (sctx (hd scrap0 m)) <> cL ->
    p_stack p = pre ++ m ++ rest -> p_sp p = length pre -> map clz m = lhs r -> (start <= length pre)%nat ->
    exists p' m', apply_rule p r start low = Ok p' /\ p_stack p' = pre ++ m' ++ rest ++ rest /\
      map sl m' = map sl m /\ map sr m' = map sr m /\
      map clz m' = rewritten (section_of r) (se (hd scrap0 m)) (dcContext (sctx (hd scrap0 m))) (lhs r).
Proof. exact @rule_doubles. Qed.
Print Assumptions C48_doubles_refuted.
Example C48_doubles_ex :
  after48 N1_10 [sc48 cEN 0 1; sc48 cNI 1 2; sc48 cEN 2 3; sc48 cL 3 4] =
    Some [(cEN, 0, 1); (cR, 1, 2); (cEN, 2, 3); (cL, 3, 4); (cL, 3, 4)].
Proof. vm_compute. reflexivity. Qed.

(* N1 between R and a number, or a number and R: the third scrap is lost, and the neutral does not
   become R. *)
Theorem C48_loses_refuted :
  forall (store : Type) (p : pst store) r pre a b d rest start low,
    In r [N1_3; N1_4; N1_5; N1_8] ->
    p_stack p = pre ++ [a; b; d] ++ rest -> p_sp p = length pre -> map clz [a; b; d] = lhs r -> (start <= length pre)%nat ->
    exists p' b', apply_rule p r start low = Ok p' /\ p_stack p' = pre ++ [a; b'] ++ rest /\ sl b' = sl b /\ sr b' = sr b /\
      clz b' <> nth 1 (rewritten (section_of r) (se a) (dcContext (sctx a)) (lhs r)) cNULL.
Proof. exact @rule_loses. Qed.
Print Assumptions C48_loses_refuted.
Example C48_loses_ex :
  after48 N1_3 [sc48 cR 0 1; sc48 cNI 1 2; sc48 cAN 2 3; sc48 cL 3 4] = Some [(cR, 0, 1); (cAN, 1, 2); (cL, 3, 4)].
Proof. vm_compute. reflexivity. Qed.
