(* Rules.v -- the bidi rules, their storage in the trie and the matching of left-hand sides.
   Models the left-hand sides and passes of bidi/actions.go and bidi/resolver.go:367-399, 485-563.
   The actions of the rules are in Resolver.v. *)
From Coq Require Import List ZArith Lia Bool.
From Verif Require Import Base Scrap Trie.
Import ListNotations.
Open Scope Z_scope.

(* The rules of actions.go, in the order of their definition. *)
Inductive rule :=
  | W4_1 | W4_2 | W4_3 | W5_1 | W5_2 | W6_1 | W6_2 | W6_3 | W6x | W7
  | N1_1 | N1_2 | N1_3 | N1_4 | N1_5 | N1_6 | N1_7 | N1_8 | N1_9 | N1_10 | N2 | LL | RR.

(* Left-hand sides: actions.go:73-295, makeLHS at :331-337. *)
Definition lhs (r : rule) : list Z :=
  match r with
  | W4_1 => [cEN; cES; cEN] | W4_2 => [cEN; cCS; cEN] | W4_3 => [cAN; cCS; cAN]
  | W5_1 => [cET; cEN] | W5_2 => [cEN; cET]
  | W6_1 => [cET] | W6_2 => [cES] | W6_3 => [cCS] | W6x => [cNI; cNI] | W7 => [cEN]
  | N1_1 => [cL; cNI; cL] | N1_2 => [cR; cNI; cR] | N1_3 => [cR; cNI; cAN] | N1_4 => [cR; cNI; cEN]
  | N1_5 => [cAN; cNI; cR] | N1_6 => [cAN; cNI; cAN] | N1_7 => [cAN; cNI; cEN]
  | N1_8 => [cEN; cNI; cR] | N1_9 => [cEN; cNI; cAN] | N1_10 => [cEN; cNI; cEN]
  | N2 => [cNI] | LL => [cL; cL] | RR => [cR; cR]
  end.

(* rule.lhsLen *)
Definition lhsLen (r : rule) : nat := length (lhs r).

(* rule.pass: 1 for rules W, 2 for the others; actions.go:292-300, and the individual rules. *)
Definition pass (r : rule) : Z :=
  match r with
  | W4_1 | W4_2 | W4_3 | W5_1 | W5_2 | W6_1 | W6_2 | W6_3 | W6x | W7 => 1
  | _ => 2
  end.

(* dictsize: resolver.go:489. *)
Definition dictsize : Z := 103.

(* The rules in the order in which prepareRulesTrie allocates them: resolver.go:507-554. *)
Definition all_rules : list rule :=
  [W4_1; W4_2; W4_3; W5_1; W5_2; W6_1; W6_2; W6_3; W6x; W7; N1_1; N1_2; N1_3; N1_4; N1_5; N1_6; N1_7;
   N1_8; N1_9; N1_10; N2; LL; RR].

(* allocRule: resolver.go:566-571. *)
Definition allocRule (st : trie * list (option rule)) (r : rule) : res (trie * list (option rule)) :=
  let (t, tab) := st in
  let* (p, t) := AllocPositionForWord t (lhs r) in
  let* tab := lift (zset tab p (Some r)) in
  Ok (t, tab).

Fixpoint allocAll (st : trie * list (option rule)) (rs : list rule) : res (trie * list (option rule)) :=
  match rs with
  | [] => Ok st
  | r :: t => let* st := allocRule st r in allocAll st t
  end.

(* prepareRulesTrie: resolver.go:495-564.  The int8 conversion of cMAX is the identity. *)
Definition prepareRulesTrie : res (trie * list (option rule)) :=
  match NewTinyHashTrie dictsize cMAX with
  | None => Panic
  | Some t =>
      let* (t, tab) := allocAll (t, repeat None (Z.to_nat dictsize)) all_rules in
      Ok (Freeze t, tab)
  end.

Section Match.
Context (t : trie) (tab : list (option rule)).

(* The loop of matchRulesLHS over the bidi classes of the scraps: resolver.go:371-382. *)
Fixpoint lhs_loop (ti : titer) (cs : list Z) (k minlen entry short : Z) : res (Z * Z) :=
  match cs with
  | [] => Ok (entry, short)
  | c :: rest =>
      let* (p, ti) := Next t ti c in
      if p =? 0 then Ok (entry, short)
      else if k =? 0 then lhs_loop ti rest (k + 1) minlen entry p
      else lhs_loop ti rest (k + 1) minlen (if minlen <=? k + 1 then p else entry) short
  end.

(* matchRulesLHS: resolver.go:367-399.  A nil rule is None. *)
Definition matchRulesLHS (cs : list Z) (minlen : Z) : res (option rule * option rule) :=
  let* (entry, short) := lhs_loop Iterator0 cs 0 minlen 0 0 in
  let* rl := lift (zget tab entry) in
  let* sr := lift (zget tab short) in
  Ok (if entry =? 0 then None else rl, if short =? 0 then None else sr).

(* The pointer reached by a whole word (0: not in the trie), for stating what is stored. *)
Fixpoint walk (ti : titer) (p : Z) (cs : list Z) : res Z :=
  match cs with
  | [] => Ok p
  | c :: rest => let* (p, ti) := Next t ti c in walk ti p rest
  end.

(* The rule found for a word. *)
Definition lookup (cs : list Z) : res (option rule) :=
  let* p := walk Iterator0 0 cs in
  let* r := lift (zget tab p) in
  Ok (if p =? 0 then None else r).
End Match.
