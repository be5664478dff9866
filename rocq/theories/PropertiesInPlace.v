(* PropertiesInPlace.v -- C32: the loops of the reordering as they are in the code, in place (model: InPlace.v);
   C35: what every call on the iterators answers, as a function of the calls before it (IterHistory.v). *)
From Coq Require Import List ZArith Lia Bool.
From Verif Require Import Base Scrap Reorder ReorderSpec InPlace InPlaceProofs IterProofs IterHistory.
Import ListNotations.
Open Scope Z_scope.

Definition sc c l r : scrap := mks c l r dc0 [].

(* ---- C32 ---- *)

(* reverse, for any two positions in any order: what lies between them, as far as there is something, is
   reversed, the rest stays.  No access is out of range; the loop ends. *)
Theorem C32_reverse_in_place :
  forall (A : Type) (l : list A) i j, 0 <= i -> 0 <= j ->
    let a := Nat.min (length l) (Z.to_nat (Z.min i j)) in
    let b := Nat.min (length l) (Z.to_nat (Z.max i j)) in
    reverse_go (length l) l i j = Ok (firstn a l ++ rev (firstn (b - a) (skipn a l)) ++ skipn b l).
Proof.
  intros A l i j I J a b. rewrite reverse_go_seg by assumption. fold b. unfold reverse_seg.
  destruct (Nat.le_ge_cases (Z.to_nat (Z.min i j)) (length l)) as [H|H].
  - replace (Z.to_nat (Z.min i j)) with a by (subst a; lia). reflexivity.
  - assert (E : a = length l) by (subst a; lia). assert (F : b = length l) by (subst b; lia). rewrite E, F.
    rewrite (firstn_all2 l) by lia. rewrite (skipn_all2 l) by lia. rewrite firstn_all, skipn_all, !firstn_nil. reflexivity.
Qed.
Print Assumptions C32_reverse_in_place.
Example C32_reverse_in_place_ex : reverse_go 6 [1; 2; 3; 4; 5; 6] 5 1 = Ok [1; 5; 4; 3; 2; 6] /\ reverse_go 3 [1; 2; 3] 1 9 = Ok [1; 3; 2].
Proof. split; reflexivity. Qed.

(* The automaton of reorder, reversing in place while it runs, gives the order of C32_reversal.  A scrap that
   was reversed is not looked at again. *)
Theorem C32_automaton_in_place :
  forall emb l, automaton_go (length l) emb l = Ok (order_loop emb [] 0 false l).
Proof. exact automaton_order. Qed.
Print Assumptions C32_automaton_in_place.
Example C32_automaton_in_place_ex :
  automaton_go 5 L2R [sc cL 0 2; sc cR 2 4; sc cEN 4 5; sc cL 5 6; sc cR 6 9] =
  Ok [sc cL 0 2; sc cEN 4 5; sc cR 2 4; sc cL 5 6; sc cR 6 9].
Proof. reflexivity. Qed.

(* An isolate is reversed between its initiator and its terminator. *)
Theorem C32_isolate_in_place :
  forall l, reverseWithoutIsolates_go (length l) l 0 (zlen l) = Ok (reverseWithoutIsolates l).
Proof. exact reverse_isolates_go. Qed.
Print Assumptions C32_isolate_in_place.
Example C32_isolate_in_place_ex :
  reverseWithoutIsolates_go 4 [sc cRLI 0 3; sc cL 3 4; sc cR 4 5; sc cPDI 5 8] 0 4 = Ok [sc cRLI 0 3; sc cR 4 5; sc cL 3 4; sc cPDI 5 8].
Proof. reflexivity. Qed.

(* ---- C35 ---- *)

(* The loop that makes a reversing iterator reverses the segments of the run, all of them, in place. *)
Theorem C35_reverse_in_place :
  forall (A : Type) (l : list A), iter_reverse (length l) l = Ok (rev l).
Proof. intros A l. exact (iter_reverse_rev l). Qed.
Print Assumptions C35_reverse_in_place.
Example C35_reverse_in_place_ex : iter_reverse 5 [1; 2; 3; 4; 5] = Ok [5; 4; 3; 2; 1] /\ iter_reverse 4 [1; 2; 3; 4] = Ok [4; 3; 2; 1].
Proof. split; reflexivity. Qed.

(* Every answer of every iterator, for all sequences of calls, reversing iterators included: Next is true
   as often as there are segments; the segment is the one counted by the calls of Next, from the front or
   from the back according to the number of reversing iterators made so far. *)
Theorem C35_history :
  forall d all cs, option_map snd (iruns (mkir d all []) cs) = answers d all [] cs.
Proof. exact history. Qed.
Print Assumptions C35_history.
Example C35_history_ex :
  answers L2R [sc cL 0 2; sc cL 4 6] [] [INew false; INext 0; ISeg 0; INew true; INext 0; ISeg 0; IEof 0; INext 0; INew true; ISeg 0; ISeg 2] =
  Some [ANone; ABool true; ASeg L2R 0 2; ANone; ABool true; ASeg L2R 0 2; ABool true; ABool false; ANone; ASeg L2R 4 6; ASeg L2R 0 0].
Proof. reflexivity. Qed.

(* A call on an iterator that was made never panics. *)
Theorem C35_no_panic :
  forall d all h c, (match c with INew _ => True | INext i | ISeg i | IEof i => (i < made h)%nat end) ->
    exists a, answer d all h c = Some a.
Proof. exact answer_total. Qed.
Print Assumptions C35_no_panic.
Example C35_no_panic_ex : answer L2R [] [INew true] (ISeg 0) = Some (ASeg L2R 0 0) /\ answer L2R [] [INew true] (ISeg 1) = None.
Proof. split; reflexivity. Qed.

(* A loop over a new iterator sees every segment once and in order, whatever happened before and whatever
   other iterators do meanwhile, as long as no reversing iterator is made during the loop. *)
Theorem C35_undisturbed_partial :
  forall d all h rv cs, no_flip cs -> in_turn (made h) true cs -> steps (made h) h = 0%nat -> steps (made h) cs = length all ->
    seen d all (made h) (h ++ [INew rv]) cs = map (fun s => Some (ASeg d (sl s) (sr s))) (facing (h ++ [INew rv]) all).
Proof.
  intros d all h rv cs NF IT S0 SC.
  assert (ST : steps (made h) (h ++ [INew rv]) = 0%nat) by (rewrite steps_snoc, S0; reflexivity).
  rewrite (seen_loop d all (made h) cs (h ++ [INew rv]) true NF IT).
  - rewrite ST, SC, !Nat.add_0_r, Nat.sub_0_r. cbn [skipn]. rewrite firstn_all2; [reflexivity|]. rewrite facing_length. lia.
  - rewrite made_snoc. lia.
  - lia.
  - discriminate.
Qed.
Print Assumptions C35_undisturbed_partial.
Example C35_undisturbed_ex :
  let h := [INew true; INext 0] in let cs := [INext 1; INew false; INext 0; ISeg 1; INext 2; INext 1; IEof 1; ISeg 1] in
  no_flip cs /\ in_turn (made h) true cs /\ steps (made h) h = 0%nat /\ steps (made h) cs = 2%nat /\
  seen L2R [sc cL 0 2; sc cL 4 6] 1 (h ++ [INew false]) cs = [Some (ASeg L2R 4 6); Some (ASeg L2R 0 2)].
Proof. cbn -[sc]. repeat split; auto. repeat constructor; discriminate. Qed.
