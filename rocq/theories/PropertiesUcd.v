(* PropertiesUcd.v -- C38: the range-table collector. *)
From Coq Require Import List ZArith Lia.
From Verif Require Import Base Ucd UcdProofs.
Import ListNotations.
Open Scope Z_scope.

(* For every sorted sequence of ranges: exactly the last maximal block of adjacent ranges is
   missing from the emitted table, and NUL has been added. *)
Theorem C38_all_but_the_last_block_partial :
  forall rs, sorted_from (-1) rs -> let '(r16, r32, _) := Output (collect rs) in
    forall c, member c (r16 ++ r32) <->
      (c = 0 \/ member c rs) /\ ~ within c (last_block 0 0 rs) \/ (c = 0 /\ exists r t, rs = (0, r) :: t).
Proof. exact collected. Qed.
Print Assumptions C38_all_but_the_last_block_partial.
Example C38_ex : sorted_from (-1) [(65, 70); (71, 90); (97, 122)] /\ last_block 0 0 [(65, 70); (71, 90); (97, 122)] = (97, 122) /\
  Output (collect [(65, 70); (71, 90); (97, 122)]) = ([(0, 0); (65, 90)], [], 0).
Proof. split; [cbn; lia|split; reflexivity]. Qed.

(* With a sentinel range behind the data the table is complete, except that it contains NUL. *)
Theorem C38_sentinel_partial :
  forall rs x y, sorted_from 0 (rs ++ [(x, y)]) -> (forall c, c = 0 \/ member c rs -> c + 1 < x) ->
    let '(r16, r32, _) := Output (collect (rs ++ [(x, y)])) in forall c, member c (r16 ++ r32) <-> c = 0 \/ member c rs.
Proof. exact collected_sentinel. Qed.
Print Assumptions C38_sentinel_partial.
Example C38_sentinel_ex : sorted_from 0 ([(65, 90)] ++ [(1114111, 1114111)]) /\ (forall c, c = 0 \/ member c [(65, 90)] -> c + 1 < 1114111) /\
  Output (collect ([(65, 90)] ++ [(1114111, 1114111)])) = ([(0, 0); (65, 90)], [], 0).
Proof.
  split; [cbn; lia|]. split; [|reflexivity]. intros c [->|M]; [lia|]. apply member_one in M. unfold within in M. cbn in M. lia.
Qed.

(* The range A-Z alone: 'A' is lost and NUL is in the table. *)
Theorem C38_refuted :
  exists rs c, sorted_from (-1) rs /\ member c rs /\
    (let '(r16, r32, _) := Output (collect rs) in ~ member c (r16 ++ r32) /\ member 0 (r16 ++ r32) /\ ~ member 0 rs).
Proof.
  exists [(65, 90)], 65. split; [cbn; lia|]. split; [constructor; cbn; unfold within; cbn; lia|].
  cbn. rewrite !member_one. unfold within. cbn. lia.
Qed.
Print Assumptions C38_refuted.
(* The switch to R32 comes too late: U+10000 is printed as a 16 bit range. *)
Theorem C38_R16_refuted :
  exists rs x, sorted_from (-1) rs /\ (let '(r16, _, _) := Output (collect rs) in In x r16 /\ 65535 < snd x).
Proof. exists [(65536, 65536); (65600, 65600)], (65536, 65536). split; [cbn; lia|]. cbn. auto with zarith. Qed.
Print Assumptions C38_R16_refuted.
