(* PropertiesRules.v -- C29: the rule dictionary. *)
From Coq Require Import List ZArith Lia Bool.
From Verif Require Import Base Scrap Trie Rules RuleProofs.
Import ListNotations.
Open Scope Z_scope.

(* The dictionary can be set up: no panic, no endless loop. *)
Theorem C29_dictionary_prepared : prepareRulesTrie = Ok (the_trie, the_tab).
Proof. exact prepared. Qed.
Print Assumptions C29_dictionary_prepared.
Example C29_prepared_ex : length the_tab = 103%nat /\ t_frozen the_trie = true.
Proof. split; reflexivity. Qed.

(* Looking up any sequence of classes finds the rule with that left-hand side among the 19 rules of
   [stored], and nothing for any other sequence. *)
Theorem C29_lookup_partial :
  forall w, Forall is_class w -> lookup the_trie the_tab w = Ok (rule_for stored w).
Proof. exact lookup_spec. Qed.
Print Assumptions C29_lookup_partial.
Example C29_lookup_ex : Forall is_class [cEN; cCS; cEN] /\ rule_for stored [cEN; cCS; cEN] = Some W4_2 /\
  rule_for stored [cEN; cCS] = None /\ rule_for stored [cEN; cCS; cEN; cEN] = None.
Proof. split; [repeat constructor; discriminate|split; [reflexivity|split; reflexivity]]. Qed.

(* Matching the scraps on the stack yields the stored rule of two or more symbols that begins the
   sequence, and the stored rule for the first symbol. *)
Theorem C29_match_partial :
  forall cs minlen, Forall is_class cs -> minlen <= 2 ->
    matchRulesLHS the_trie the_tab cs minlen = Ok (long_rule stored cs, rule_for stored (firstn 1 cs)).
Proof. exact match_spec. Qed.
Print Assumptions C29_match_partial.
Example C29_match_ex : Forall is_class [cEN; cET; cL; cWS] /\
  matchRulesLHS the_trie the_tab [cEN; cET; cL; cWS] 0 = Ok (Some W5_2, Some W7).
Proof. split; [repeat constructor; discriminate|vm_compute; reflexivity]. Qed.

(* Four of the 23 rules are lost: their family is relocated after they have been stored, so their
   positions are stale (and N1-8, N1-9 take the slots of N1-5, N1-6). *)
Theorem C29_lost_rules_refuted :
  forall r, In r [N1_5; N1_6; N1_8; N1_9] ->
    In r all_rules /\ lookup the_trie the_tab (lhs r) = Ok None.
Proof.
  intros r I. simpl in I. destruct I as [<-|[<-|[<-|[<-|[]]]]]; (split; [simpl; tauto|vm_compute; reflexivity]).
Qed.
Print Assumptions C29_lost_rules_refuted.
Example C29_lost_ex : lhs N1_6 = [cAN; cNI; cAN] /\ rule_for all_rules [cAN; cNI; cAN] = Some N1_6.
Proof. split; reflexivity. Qed.
