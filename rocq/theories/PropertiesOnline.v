(* PropertiesOnline.v -- C83: when a segment is delivered, and with which penalties, for arbitrary breakers.
   [os]: any history of calls before; [brks s], [boz s]: the breakers and the break-on-zero settings of the segmenter.  [online] is defined in
   SegOnline.v, [matrix] (the answers of the breakers) and [permitted] in SegSpec.v. *)
From Coq Require Import List ZArith Lia Bool.
From Verif Require Import Base RuneWrite Segmenter SegSpec SegInv SegNext SegFacade SegTheorems SegOnline PropertiesSegmenter.
Import ListNotations.
Open Scope Z_scope.

(* The breakers need not obey any contract; only the end of the text itself must not be a break (C03). *)
Theorem C83_slice :
  forall (B : Type) (bstep : B -> Z -> B * Z * list Z) os bs s text n,
    Forall op_ok os -> history deque_ops bstep os (NewSegmenter bs) = Ok s -> zlen text < MaxInt ->
    eot_safe (matrix bstep (brks s) (text ++ [0])) -> (length text + 1 < n)%nat ->
    exists s1 outs s', InitFromSlice deque_ops text s = Ok s1 /\ loop deque_ops bstep n s1 = Ok (outs, true, s') /\
      online text (matrix bstep (brks s) (text ++ [0])) (permitted (boz s) (1 <? zlen (brks s))) 0 0 outs.
Proof. intros B bstep os bs s text n. apply online_slice. Qed.
Print Assumptions C83_slice.
(* The same from a reader, segments limited by the buffer. *)
Theorem C83_reader :
  forall (B : Type) (bstep : B -> Z -> B * Z * list Z) os bs s its n,
    Forall op_ok os -> history deque_ops bstep os (NewSegmenter bs) = Ok s -> Forall (fun it => 1 <= snd it) its -> sizes its < MaxInt ->
    let text := map fst its in eot_safe (matrix bstep (brks s) (text ++ [0])) -> (length its + 1 < n)%nat ->
    exists s1 outs s' l, Init deque_ops (mkrd its EOF) s = Ok s1 /\ loop deque_ops bstep n s1 = Ok (outs, true, s') /\
      online text (matrix bstep (brks s) (text ++ [0])) (permitted (boz s) (1 <? zlen (brks s))) 0 0 l /\
      outs = map (fun x => (firstn (Z.to_nat (init_limit (rbuf s))) (fst x), snd x)) l.
Proof. intros B bstep os bs s its n. apply online_reader. Qed.
Print Assumptions C83_reader.
(* The specification determines what is delivered. *)
Theorem C83_unique : forall text m perm k c l l', online text m perm k c l -> online text m perm k c l' -> l = l'.
Proof. intros text m perm k c l l' H H'. exact (online_det text m perm k c l H l' H'). Qed.
Print Assumptions C83_unique.

(* A breaker that breaks the contract: it announces no match, but takes the break behind the first rune back one rune later, and adds one behind the
   second rune two runes later.  The first break has been delivered by then, the second one comes with the fourth rune. *)
Definition fickle (n : nat) (r : Z) : nat * Z * list Z :=
  (S n, if r =? 0 then 1 else 0, match n with 0%nat => [50] | 1%nat => [0; 20000] | 3%nat => [0; 0; 30] | _ => if r =? 0 then [0; 7] else [] end).
Definition fickle_runs (text : list Z) : res (list (list Z * (Z * Z))) :=
  let* s := InitFromSlice deque_ops text (NewSegmenter [0%nat]) in
  let* (outs, ok, s') := loop deque_ops fickle (length text + 2) s in Ok outs.
Example C83_ex :
  eot_safe (matrix fickle [0%nat] ([97; 98; 99; 100; 101] ++ [0])) /\
  fickle_runs [97; 98; 99; 100; 101] = Ok [([97], (50, 0)); ([98], (30, 0)); ([99; 100; 101], (7, 0))] /\
  (* the sums in the end *)
  map ap0 (effs (inputs [97; 98; 99; 100; 101]) (matrix fickle [0%nat] ([97; 98; 99; 100; 101] ++ [0]))) = [20050; 30; 0; 0; 7; 10000].
Proof. split; [vm_compute; split; discriminate|]. split; vm_compute; reflexivity. Qed.
