(* PropertiesSegBound.v -- C74: what a bounded search delivers, and what is delivered after it. *)
From Coq Require Import List ZArith Lia Bool.
From Verif Require Import Base RuneWrite Segmenter SegSpec SegSim SegInv SegNext SegCut SegFacade SegTheorems SegBound SimpleWord.
From Verif Require Words PropertiesWords PropertiesSegmenter.
Import ListNotations.
Open Scope Z_scope.

(* After n segments, which end at position c, the next segment is [piece], from c to e.  BoundedNext(b) is called,
   then Next until it returns false.
   e <= b: the segment is delivered.  The segments behind it follow, possibly with an additional cut at b; if the end
   of the text has been read, the cut is at b + 1, and Text() panics if this is beyond the text.
   b < e, end of the text not read: nothing is delivered if b <= c; else the runes up to b, or an error is set.  All the
   rest is delivered by the calls of Next (after an error limited by the buffer).
   b < e, end of the text read: an empty segment if b < c; else the runes up to b + 1, and nothing more ever. *)
Theorem C74_bounded :
  forall (B : Type) (bstep : B -> Z -> B * Z * list Z) os bs s text n b piece p,
    Forall op_ok os -> history deque_ops bstep os (NewSegmenter bs) = Ok s -> zlen text < MaxInt -> b <= MaxInt ->
    Forall (fun k => breaker_obeys bstep k (text ++ [0])) (brks s) -> eot_safe (matrix bstep (brks s) (text ++ [0])) ->
    let pieces := spec_of bstep (boz s) (brks s) text in
    let c := zlen (concat (map fst (firstn n pieces))) in
    let e := c + zlen piece in
    nth_error pieces n = Some (piece, p) ->
    exists s1 s2 o s3, InitFromSlice deque_ops text s = Ok s1 /\
      run deque_ops bstep (repeat CNext n) s1 = Ok (map Some (firstn n pieces), s2) /\
      exec deque_ops bstep (CBounded b) s2 = Ok (o, s3) /\
      let later m r := exists s4, loop deque_ops bstep m s3 = Ok (r, true, s4) in
      (e <= b -> o = Some (piece, p) /\ forall m, (length text < m)%nat ->
         let x := if atEOF s3 then b + 1 else b in
         later m (skipn (S n) pieces) \/
         (e < x /\ if x <=? zlen text
                   then exists q, later m ((firstn (Z.to_nat (x - e)) (skipn (Z.to_nat e) text), q) :: behind (x - e) (skipn (S n) pieces))
                   else loop deque_ops bstep m s3 = Panic)) /\
      (b < e -> atEOF s3 = false ->
         (b <= c -> o = None) /\
         (c < b -> (o = None /\ err s3 <> None) \/ exists q, o = Some (firstn (Z.to_nat (b - c)) piece, q)) /\
         forall m, (length text < m)%nat ->
           (o = None -> later m (skipn n pieces) \/
              (err s3 <> None /\ later m (map (fun x => (firstn (Z.to_nat (init_limit (rbuf s2))) (fst x), snd x)) (skipn n pieces)))) /\
           (o <> None -> later m (behind (b - c) (skipn n pieces)))) /\
      (b < e -> atEOF s3 = true ->
         (b < c -> o = Some ([], (0, 0)) /\ forall m, (length text < m)%nat -> later m (skipn n pieces)) /\
         (c <= b -> (exists q, o = Some (firstn (Z.to_nat (b + 1 - c)) piece, q)) /\
            forall cs, exists s4, run deque_ops bstep cs s3 = Ok (map (fun _ => None) cs, s4))).
Proof.
  intros B bstep os bs s text n b piece p Ho H Tt Hb Hk Es.
  exact (bounded_session bstep os bs s text n b piece p Ho H Tt Hb (contract_obeys bstep (brks s) (text ++ [0]) Hk) Es).
Qed.
Print Assumptions C74_bounded.

Section Example_.
Notation swb1 := PropertiesSegmenter.swb1.
Notation sp := PropertiesSegmenter.sp.
Definition text0 : list Z := [97; 98; 99; 100; 101; 102; 32; 97].
Definition runs_of (t : list Z) (cs : list call) : res (list (option (list Z * (Z * Z))) * option error) :=
  let* s := InitFromSlice deque_ops t (NewSegmenter swb1) in
  let* (os, s') := run deque_ops (swb_step sp) cs s in Ok (os, err s').

(* "abcdef a": the premises, and a segment in two parts *)
Example C74_ex :
  Forall (fun k => breaker_obeys (swb_step sp) k (text0 ++ [0])) swb1 /\ eot_safe (matrix (swb_step sp) swb1 (text0 ++ [0])) /\
  nth_error (spec_of (swb_step sp) (false, false) swb1 text0) 0 = Some ([97; 98; 99; 100; 101; 102], (100, 0)) /\
  runs_of text0 [CBounded 3; CNext; CNext; CNext; CNext] =
    Ok ([Some ([97; 98; 99], (0, 0)); Some ([100; 101; 102], (100, 0)); Some ([32], (-100, 0)); Some ([97], (100, 0)); None], None) /\
  runs_of text0 [CBounded 6; CNext; CNext; CNext] =
    Ok ([Some ([97; 98; 99; 100; 101; 102], (100, 0)); Some ([32], (-100, 0)); Some ([97], (100, 0)); None], None) /\
  runs_of text0 [CNext; CBounded 6; CNext; CNext; CNext] =
    Ok ([Some ([97; 98; 99; 100; 101; 102], (100, 0)); None; Some ([32], (-100, 0)); Some ([97], (100, 0)); None], Some ErrBoundReached).
Proof.
  split.
  { constructor; [|constructor]. intros j Hj. cbn in Hj. do 8 (destruct j as [|j]; [vm_compute; split; [discriminate|intros [|[|i]] X; try discriminate; try reflexivity; destruct i; reflexivity]|]). lia. }
  split; [vm_compute; split; discriminate|]. repeat split; vm_compute; reflexivity.
Qed.

(* A breaker that keeps four positions undecided and then decides them at once. *)
Definition late (n : nat) (r : Z) : nat * Z * list Z :=
  if r =? 0 then (S n, 0, [0; 10]) else
  if (n <? 4)%nat then (S n, Z.of_nat (S n), []) else
  if (n =? 4)%nat then (S n, 1, [0; 0; 0; 0; 10]) else (S n, 1, []).
Definition late_runs (t : list Z) (cs : list call) : res (list (option (list Z * (Z * Z))) * option error) :=
  let* s := InitFromSlice deque_ops t (NewSegmenter [0%nat]) in
  let* (os, s') := run deque_ops late cs s in Ok (os, err s').
(* the error: the bound lies within the second segment, whose first runes are decided; with one more rune the
   segment is delivered up to the bound *)
Example C74_error_ex :
  late_runs [97; 98; 99; 100; 101; 102; 103] [CNext; CBounded 4; CNext] =
    Ok ([Some ([97], (10, 0)); None; Some ([98; 99; 100; 101; 102; 103], (10, 0))], Some ErrBoundReached) /\
  late_runs [97; 98; 99; 100; 101; 102; 103] [CNext; CBounded 5; CNext] =
    Ok ([Some ([97], (10, 0)); Some ([98; 99; 100; 101], (0, 0)); Some ([102; 103], (10, 0))], None).
Proof. split; vm_compute; reflexivity. Qed.

(* A bound within the last segment: once the end of the text has been read, one rune too many is delivered and
   the rest of the text never is. *)
Theorem C74_text_lost_refuted :
  exists text s1 s', InitFromSlice deque_ops text (NewSegmenter swb1) = Ok s1 /\
    run deque_ops (swb_step sp) [CBounded 3; CNext; CNext; CNext] s1 = Ok ([Some (firstn 4 text, (0, 0)); None; None; None], s') /\
    spec_of (swb_step sp) (false, false) swb1 text = [(text, (100, 0))] /\ length text = 6%nat.
Proof.
  exists [97; 98; 99; 100; 101; 102]. eexists _, _.
  split; [vm_compute; reflexivity|]. split; [vm_compute; reflexivity|]. split; vm_compute; reflexivity.
Qed.
Print Assumptions C74_text_lost_refuted.

(* A bound at the end of the text: the call of Next behind it returns true, and Text() panics. *)
Theorem C74_panic_refuted :
  exists text s1 s2 s3, InitFromSlice deque_ops text (NewSegmenter swb1) = Ok s1 /\
    exec deque_ops (swb_step sp) (CBounded (zlen text)) s1 = Ok (Some (text, (100, 0)), s2) /\
    Next deque_ops (swb_step sp) s2 = Ok (true, s3) /\ Text s3 = Panic.
Proof.
  exists [97; 98; 99]. eexists _, _, _.
  split; [vm_compute; reflexivity|]. split; [vm_compute; reflexivity|]. split; vm_compute; reflexivity.
Qed.
Print Assumptions C74_panic_refuted.
(* A breaker that decides everything at the end: all cases behind the end of the text.  An empty segment; one rune
   too many and nothing behind; a cut one rune behind the bound. *)
Definition last_minute (n : nat) (r : Z) : nat * Z * list Z :=
  if r =? 0 then (S n, 0, [0; 10; 0; 0; 10]) else (S n, Z.of_nat (S n), []).
Definition minute_runs (cs : list call) : res (list (option (list Z * (Z * Z)))) :=
  let* s := InitFromSlice deque_ops [97; 98; 99; 100; 101] (NewSegmenter [0%nat]) in
  let* (os, s') := run deque_ops last_minute cs s in Ok os.
Example C74_end_ex :
  minute_runs [CNext; CNext; CNext] = Ok [Some ([97; 98], (10, 0)); Some ([99; 100; 101], (10, 0)); None] /\
  minute_runs [CNext; CBounded 1; CNext] = Ok [Some ([97; 98], (10, 0)); Some ([], (0, 0)); Some ([99; 100; 101], (10, 0))] /\
  minute_runs [CNext; CBounded 2; CNext] = Ok [Some ([97; 98], (10, 0)); Some ([99], (0, 0)); None] /\
  minute_runs [CBounded 2; CNext; CNext] = Ok [Some ([97; 98], (10, 0)); Some ([99], (0, 0)); Some ([100; 101], (10, 0))].
Proof. repeat split; vm_compute; reflexivity. Qed.

(* The bound of one call cuts the segment of the next one: after BoundedNext(3) has delivered "a", Next delivers only
   the part up to position 3 of its segment. *)
Theorem C74_stale_bound_refuted :
  exists text s1 s' t', InitFromSlice deque_ops text (NewSegmenter [Some Words.NewWordBreaker]) = Ok s1 /\
    run deque_ops (Words.wb_step PropertiesWords.tab PropertiesWords.pic) [CNext; CNext] s1 =
      Ok ([Some (firstn 1 text, (10, 0)); Some (firstn 4 (skipn 1 text), (10, 0))], t') /\
    run deque_ops (Words.wb_step PropertiesWords.tab PropertiesWords.pic) [CBounded 3; CNext] s1 =
      Ok ([Some (firstn 1 text, (10, 0)); Some (firstn 2 (skipn 1 text), (10000, 0))], s').
Proof.
  exists [97; 39; 776; 776; 776; 32; 98]. eexists _, _, _.
  split; [vm_compute; reflexivity|]. split; vm_compute; reflexivity.
Qed.
Print Assumptions C74_stale_bound_refuted.

(* A bounded search that ends with an error makes the segmenter copy the text: segments of a slice delivered later
   are cut to the limit of the buffer -- 4096 runes (C73), here set to 4. *)
Theorem C74_copy_after_error_refuted :
  exists text s0 s1 s' t' p, RuneBuffer [0; 0] 2 4 (NewSegmenter swb1) = Ok s0 /\ InitFromSlice deque_ops text s0 = Ok s1 /\
    run deque_ops (swb_step sp) [CNext] s1 = Ok ([Some (text, p)], t') /\
    run deque_ops (swb_step sp) [CBounded 0; CNext] s1 = Ok ([None; Some (firstn 4 text, p)], s') /\ zlen text = 6.
Proof.
  exists [97; 98; 99; 100; 101; 102]. eexists _, _, _, _, _.
  split; [vm_compute; reflexivity|]. split; [vm_compute; reflexivity|]. split; [vm_compute; reflexivity|]. split; vm_compute; reflexivity.
Qed.
Print Assumptions C74_copy_after_error_refuted.
End Example_.
