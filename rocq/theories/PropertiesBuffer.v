(* PropertiesBuffer.v -- the buffer of the current segment (C64), the penalties of the line-break rules (C65). *)
From Coq Require Import List ZArith Lia Bool.
From Verif Require Import Base RuneWrite BufferSpec PrioQ Recognizer Line LinePenalty.
Import ListNotations.
Open Scope Z_scope.

(* ---- C64: the buffer of the current segment ---- *)
(* Whatever writes, marks, restarts and reads are made on a new buffer of maximal length m, they give the results
   of the abstract buffer: following a text, a read gives the part of the text between the mark and the number of
   runes written; collecting, it gives the runes written since the mark, and a write is refused exactly if the
   limit is reached. *)
Theorem C64_buffer : forall m os, trace step (new_buf m) os = trace (astep m) (empty_buf m) os.
Proof. intros m os. exact (proj1 (buffer_refines m os _ _ (same_new m))). Qed.
Print Assumptions C64_buffer.
Example C64_buffer_ex :
  trace step (new_buf 2) [Write 7; Write 8; Write 9; Read; Mark; Write 5; Read; Restart (Some [1; 2; 3]); Write 1; Mark; Write 2; Read; Restart None; Read]
  = [Written true; Written true; Written false; Content (Some [7; 8]); Nothing; Written true; Content (Some [5]); Nothing;
     Written true; Nothing; Written true; Content (Some [2]); Nothing; Content (Some [])] /\
  trace step rw_zero [Write 7; Read] = [Written false; Content (Some [])] /\ new_buf 0 = rw_zero.
Proof. vm_compute. auto. Qed.
(* A segment in a collecting buffer, however it was used before: the first writes up to the limit succeed, all
   others are refused, and a read gives the runes of the successful writes. *)
Theorem C64_segment : forall m os l, let a := after (astep m) (empty_buf m) (os ++ [Restart None]) in
  trace step (after step (new_buf m) (os ++ [Restart None])) (map Write l ++ [Read])
  = map (fun i => Written (Z.of_nat i <? most a)) (seq 0 (length l)) ++ [Content (Some (firstn (Z.to_nat (most a)) l))].
Proof.
  intros m os l a. destruct (buffer_refines m (os ++ [Restart None]) _ _ (same_new m)) as [_ S]. fold a in S.
  rewrite (proj1 (buffer_refines m _ _ _ S)).
  assert (E : how a = Collect /\ kept a = []).
  { unfold a. clear. generalize (empty_buf m). induction os as [|o os IH]; intros b; [split; reflexivity|]. exact (IH (fst (astep m b o))). }
  destruct E as [E1 E2].
  rewrite (collect_trace m l a E1).
  - rewrite E2. cbn [app]. unfold zlen. cbn [length]. rewrite Z.sub_0_r. reflexivity.
  - rewrite E2. destruct S as (_ & _ & _ & L & C & _). unfold SegNext.limit in L. unfold zlen in *. cbn [length] in *. lia.
Qed.
Print Assumptions C64_segment.
Example C64_segment_ex : most (after (astep 70000) (empty_buf 70000) ([Restart (Some [1]); Write 1] ++ [Restart None])) = 70000.
Proof. vm_compute. reflexivity. Qed.
(* The buffer never allocates more than the larger of its first allocation and the maximal length. *)
Theorem C64_memory : forall m os, outcap (after step (new_buf m) os) <= Z.max 4096 m.
Proof. exact capacity_bound. Qed.
Print Assumptions C64_memory.
Example C64_memory_ex : outcap (after step (new_buf 10) [Write 1]) = 10 /\ outcap (after step (new_buf 10) [Restart None; Write 1]) = 4096.
Proof. vm_compute. auto. Qed.

(* ---- C65: penalties of the line-break rules ---- *)
(* Earlier rules do not weigh less than later ones; no rule weighs as little as the default penalty, and none as
   much as a suppressed break. *)
Theorem C65_order : forall v w, v <= w <= 31 -> p w <= p v.
Proof. exact p_falls. Qed.
Print Assumptions C65_order.
Theorem C65_range : forall w, 1 <= w <= 31 -> DefaultPenalty < p w < Suppress.
Proof. intros w H. pose proof (p_at_least w). pose proof (p_below w). unfold DefaultPenalty. lia. Qed.
Print Assumptions C65_range.
Example C65_range_ex : map p [1; 8; 11; 20; 27; 28; 30; 31] = [2619; 417; 190; 17; 2; 2; 2; 2].
Proof. vm_compute. reflexivity. Qed.
(* The penalties of a match of length l: none behind the current code point, the given one before it, and the
   penalty of the rule at all other places of the match. *)
Theorem C65_match : forall w first l i, 1 <= l -> zlen (ps w first l) = l + 1 /\
  nth i (ps w first l) 0 = if (i =? 0)%nat then 0 else if (i =? 1)%nat then first else if Z.of_nat i <=? l then p w else 0.
Proof. intros w first l i H. split; [exact (ps_length w first l H)|exact (ps_at w first l i H)]. Qed.
Print Assumptions C65_match.
Example C65_match_ex : ps 25 0 3 = [0; 0; 4; 4] /\ ps 25 (p 25) 1 = [0; 4].
Proof. vm_compute. auto. Qed.
(* Every state function gives the weight of the rule it is named after ("I use the rule number directly", uax14.go:377),
   against a break or, for LB8, LB18 and LB20, for one; the rules for hard breaks give the two fixed penalties.
   LB24 does not: it has the weight of LB23. *)
Theorem C65_rules : forall l x, ~ In l [LB24_1_end; LB24_2_end] -> gives l x -> x = 0 \/ fits l x.
Proof. exact rule_weight. Qed.
Print Assumptions C65_rules.
Theorem C65_LB24_refuted :
  (forall l x, In l [LB24_1_end; LB24_2_end] -> gives l x -> x = 0 \/ x = p 23) /\
  ~ (forall l x, gives l x -> x = 0 \/ fits l x).
Proof.
  split; [exact LB24_weight|]. intros H. destruct (H LB24_1_end (p 23)) as [E|[E|[E _]]]; try discriminate E.
  exists (mksh false sot false), (NewRecognizer PR LB24_1_end), 0, AL. split; [reflexivity|right; left; reflexivity].
Qed.
Print Assumptions C65_LB24_refuted.
Example C65_rules_ex : gives LB8_end (- p 8) /\ gives LB20 (p 20) /\ gives LB20 (- p 20) /\ gives LB25_4 (p 25) /\
  gives CRLF Must /\ gives LB30a_end (p 30).
Proof.
  pose (g := mksh false CB true). pose (r := fun l : llabel => NewRecognizer AL l).
  split; [exists g, (r LB8_end), 0, AL|split; [exists g, (r LB20), 0, AL|split; [exists g, (r LB20), 0, AL|
    split; [exists g, (r LB25_4), 0, PR|split; [exists g, (r CRLF), 0, AL|exists (mksh false CB false), (r LB30a_end), 0, RI]]]]];
    (split; [reflexivity|vm_compute; auto]).
Qed.
