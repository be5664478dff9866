(* PropertiesSegmenter.v -- C02-C12: the segmenter and the simple word breaker.
   Everything is stated for the ring buffer (deque_ops).  A session starts from a new segmenter after
   an arbitrary history of client operations, so first use and re-use are both covered. *)
From Coq Require Import List ZArith Lia Bool.
From Verif Require Import Base RuneWrite Segmenter SegSpec SegInv SegNext SegCut SegFacade SegTheorems SimpleWord SimpleWordProofs SegCor SegBlank.
From Verif Require Deque.
Import ListNotations.
Open Scope Z_scope.

(* ---- concrete pieces for the examples ---- *)
Definition sp (r : Z) : bool := r =? 32.
Definition swb1 : list swb := [NewSimpleWordBreaker].
Definition bytes1 (l : list Z) : reader := mkrd (map (fun r => (r, 1)) l) EOF.
(* "ab  c" *)
Definition abc : list Z := [97; 98; 32; 32; 99].

(* ---- C02 ---- *)
(* Any reader, any breakers, any mixture of Next and BoundedNext calls: the delivered segments tile
   a prefix of what was read (the input followed by the end marker 0).  The text shown for a segment
   is the segment cut to the buffer's limit. *)
Theorem C02_any_calls_tile :
  forall (B : Type) (bstep : B -> Z -> B * Z * list Z) os bs s rd cs,
    Forall op_ok os -> history deque_ops bstep os (NewSegmenter bs) = Ok s ->
    exists s1 segs s' c, Init deque_ops rd s = Ok s1 /\
      run deque_ops bstep cs s1 =
        Ok (map (fun o => match o with Some (seg, p) => Some (firstn (Z.to_nat (init_limit (rbuf s))) seg, p) | None => None end) segs, s') /\
      concat (map (fun o => match o with Some (seg, _) => seg | None => [] end) segs) =
      firstn c (map fst (items rd) ++ match fin rd with EOF => [0] | _ => [] end).
Proof. exact @calls_tile. Qed.
Print Assumptions C02_any_calls_tile.
Example C02_any_calls_tile_ex :
  (let* s := Init deque_ops (bytes1 abc) (NewSegmenter swb1) in
   let* (os, _) := run deque_ops (swb_step sp) [CBounded 1; CNext; CBounded 3; CNext; CNext; CNext] s in Ok os)
  = Ok [Some ([97], (0, 0)); Some ([98], (100, 0)); Some ([32], (0, 0)); Some ([32], (-100, 0)); Some ([99], (100, 0)); None].
Proof. vm_compute. reflexivity. Qed.

(* Next only, slice input: exact tiling of a prefix of the input, end marker excluded. *)
Theorem C02_slice_next_tiles :
  forall (B : Type) (bstep : B -> Z -> B * Z * list Z) os bs s b n,
    Forall op_ok os -> history deque_ops bstep os (NewSegmenter bs) = Ok s -> zlen b < MaxInt ->
    eot_safe (matrix bstep (brks s) (b ++ [0])) ->
    exists s1 segs fl s' c, InitFromSlice deque_ops b s = Ok s1 /\ loop deque_ops bstep n s1 = Ok (segs, fl, s') /\
      concat (map fst segs) = firstn c b /\ Forall (fun x => fst x <> []) segs.
Proof. exact @slice_tiles. Qed.
Print Assumptions C02_slice_next_tiles.
Example C02_slice_next_tiles_ex :
  history deque_ops (swb_step sp) [] (NewSegmenter swb1) = Ok (NewSegmenter swb1) /\
  eot_safe (matrix (swb_step sp) swb1 (abc ++ [0])).
Proof. split; [reflexivity|]. vm_compute. split; discriminate. Qed.

(* ---- C03 ---- *)
(* With a conforming set of breakers whose active match at the end is at most one rune and which
   permit a break after the last rune, the segments concatenate to the whole input. *)
Theorem C03_nothing_lost_slice :
  forall (B : Type) (bstep : B -> Z -> B * Z * list Z) os bs s b n,
    Forall op_ok os -> history deque_ops bstep os (NewSegmenter bs) = Ok s -> zlen b < MaxInt ->
    obeys (matrix bstep (brks s) (b ++ [0])) -> eot_safe (matrix bstep (brks s) (b ++ [0])) ->
    b <> [] -> longest (last (matrix bstep (brks s) (b ++ [0])) []) <= 1 ->
    test_of (boz s) (brks s) (eff (inputs b) (matrix bstep (brks s) (b ++ [0])) (length b - 1)) = true ->
    (length b + 1 < n)%nat ->
    exists s1 outs s', InitFromSlice deque_ops b s = Ok s1 /\ loop deque_ops bstep n s1 = Ok (outs, true, s') /\
      concat (map fst outs) = b.
Proof.
  intros B bstep os bs s b n Ho H Tt Ob Es Ne Ll Tl Hn.
  destruct (slice_cut bstep os bs s b n Ho H Tt Ob Es Hn) as (s1 & s' & I & L & _).
  exists s1, (spec_of bstep (boz s) (brks s) b), s'. split; [exact I|]. split; [exact L|].
  exact (spec_complete bstep (boz s) (brks s) b Ne Es Ll Tl).
Qed.
Print Assumptions C03_nothing_lost_slice.
Theorem C03_nothing_lost_reader :
  forall (B : Type) (bstep : B -> Z -> B * Z * list Z) os bs s its n,
    Forall op_ok os -> history deque_ops bstep os (NewSegmenter bs) = Ok s ->
    Forall (fun it => 1 <= snd it) its -> sizes its < MaxInt ->
    let b := map fst its in let m := matrix bstep (brks s) (b ++ [0]) in
    obeys m -> eot_safe m -> b <> [] -> longest (last m []) <= 1 ->
    test_of (boz s) (brks s) (eff (inputs b) m (length b - 1)) = true ->
    (length its + 1 < n)%nat ->
    exists s1 segs s', Init deque_ops (mkrd its EOF) s = Ok s1 /\
      loop deque_ops bstep n s1 = Ok (map (fun x => (firstn (Z.to_nat (init_limit (rbuf s))) (fst x), snd x)) segs, true, s') /\
      concat (map fst segs) = b.
Proof.
  intros B bstep os bs s its n Ho H Sz Tt b m Ob Es Ne Ll Tl Hn.
  destruct (reader_cut bstep os bs s its n Ho H Sz Tt Ob Hn) as (s1 & s' & I & L & _).
  exists s1, (spec_of bstep (boz s) (brks s) b), s'. split; [exact I|]. split; [exact L|].
  exact (spec_complete bstep (boz s) (brks s) b Ne Es Ll Tl).
Qed.
Print Assumptions C03_nothing_lost_reader.
Example C03_ex : let m := matrix (swb_step sp) swb1 (abc ++ [0]) in
  obeys m /\ eot_safe m /\ longest (last m []) <= 1 /\ test_of (false, false) swb1 (eff (inputs abc) m (length abc - 1)) = true.
Proof.
  assert (NZ : Forall (fun r => r <> 0) abc) by (repeat constructor; discriminate).
  destruct (swb_cut sp eq_refl abc NZ) as (H1 & H2 & _). split; [exact H1|]. split; [exact H2|].
  split; [vm_compute; discriminate|vm_compute; reflexivity].
Qed.

(* ---- C04 ---- *)
(* Next() on a reader: every segment is non-empty and a piece of the input. *)
Theorem C04_segments_nonempty_real :
  forall (B : Type) (bstep : B -> Z -> B * Z * list Z) os bs s its n,
    Forall op_ok os -> history deque_ops bstep os (NewSegmenter bs) = Ok s ->
    Forall (fun it => 1 <= snd it) its -> sizes its < MaxInt -> eot_safe (matrix bstep (brks s) (map fst its ++ [0])) ->
    exists s1 segs fl s' c, Init deque_ops (mkrd its EOF) s = Ok s1 /\
      loop deque_ops bstep n s1 = Ok (map (fun x => (firstn (Z.to_nat (init_limit (rbuf s))) (fst x), snd x)) segs, fl, s') /\
      concat (map fst segs) = firstn c (map fst its) /\ Forall (fun x => fst x <> []) segs.
Proof. exact @reader_tiles. Qed.
Print Assumptions C04_segments_nonempty_real.
Example C04_ex : Forall (fun it => 1 <= snd it) (map (fun r => (r, 1)) abc) /\ init_limit (rbuf (NewSegmenter (Q := @Deque.deque atom) swb1)) = 4096.
Proof. split; [repeat constructor; discriminate|reflexivity]. Qed.

(* BoundedNext does deliver the end marker, and does deliver empty segments. *)
Theorem C04_bounded_delivers_marker_refuted :
  exists rd cs s1 outs s', Init deque_ops rd (NewSegmenter swb1) = Ok s1 /\
    run deque_ops (swb_step sp) cs s1 = Ok (outs, s') /\ ~ In 0 (map fst (items rd)) /\
    nth 1 outs None = Some ([0], (10000, 10000)).
Proof.
  exists (bytes1 [97; 98; 99]), [CBounded 3; CBounded 3]. eexists _, _, _.
  split; [vm_compute; reflexivity|]. split; [vm_compute; reflexivity|]. split; [|vm_compute; reflexivity].
  cbn. intros [H|[H|[H|[]]]]; discriminate.
Qed.
Print Assumptions C04_bounded_delivers_marker_refuted.
Theorem C04_bounded_empty_segment_refuted :
  exists rd cs s1 outs s', Init deque_ops rd (NewSegmenter swb1) = Ok s1 /\
    run deque_ops (swb_step sp) cs s1 = Ok (outs, s') /\ nth 1 outs None = Some ([], (0, 0)).
Proof.
  exists (bytes1 [97; 98; 99]), [CBounded 3; CBounded 1]. eexists _, _, _.
  split; [vm_compute; reflexivity|]. split; vm_compute; reflexivity.
Qed.
Print Assumptions C04_bounded_empty_segment_refuted.

(* ---- C05 ---- *)
(* For breakers that obey the contract, the loop of Next() calls yields exactly the cut of the text at
   the positions whose summed penalties permit a break, with these sums as Penalties(). *)
Theorem C05_breaks_exactly_where_permitted_slice :
  forall (B : Type) (bstep : B -> Z -> B * Z * list Z) os bs s b n,
    Forall op_ok os -> history deque_ops bstep os (NewSegmenter bs) = Ok s -> zlen b < MaxInt ->
    Forall (fun k => breaker_obeys bstep k (b ++ [0])) (brks s) -> eot_safe (matrix bstep (brks s) (b ++ [0])) ->
    (length b + 1 < n)%nat ->
    exists s1 s', InitFromSlice deque_ops b s = Ok s1 /\
      loop deque_ops bstep n s1 = Ok (spec_of bstep (boz s) (brks s) b, true, s') /\ err s' = err s.
Proof.
  intros B bstep os bs s b n Ho H Tt Hb Es Hn.
  exact (slice_cut bstep os bs s b n Ho H Tt (contract_obeys bstep (brks s) (b ++ [0]) Hb) Es Hn).
Qed.
Print Assumptions C05_breaks_exactly_where_permitted_slice.
Theorem C05_breaks_exactly_where_permitted_reader :
  forall (B : Type) (bstep : B -> Z -> B * Z * list Z) os bs s its n,
    Forall op_ok os -> history deque_ops bstep os (NewSegmenter bs) = Ok s ->
    Forall (fun it => 1 <= snd it) its -> sizes its < MaxInt ->
    Forall (fun k => breaker_obeys bstep k (map fst its ++ [0])) (brks s) -> (length its + 1 < n)%nat ->
    exists s1 s', Init deque_ops (mkrd its EOF) s = Ok s1 /\
      loop deque_ops bstep n s1 =
        Ok (map (fun x => (firstn (Z.to_nat (init_limit (rbuf s))) (fst x), snd x)) (spec_of bstep (boz s) (brks s) (map fst its)), true, s') /\
      err s' = err s.
Proof.
  intros B bstep os bs s its n Ho H Sz Tt Hb Hn.
  exact (reader_cut bstep os bs s its n Ho H Sz Tt (contract_obeys bstep (brks s) (map fst its ++ [0]) Hb) Hn).
Qed.
Print Assumptions C05_breaks_exactly_where_permitted_reader.
(* Two breakers, the second one a clock that marks every second rune; both obey the contract. *)
Inductive two := Word (w : swb) | Clock (n : Z).
Definition two_step (b : two) (r : Z) : two * Z * list Z :=
  match b with
  | Word w => let '(w', l, p) := swb_step sp w r in (Word w', l, p)
  | Clock n => (Clock (n + 1), 0, if (n mod 2 =? 1) && negb (r =? 0) then [7] else [])
  end.
Definition two0 : list two := [Word NewSimpleWordBreaker; Clock 0].
Example C05_ex :
  Forall (fun k => breaker_obeys two_step k (abc ++ [0])) two0 /\ eot_safe (matrix two_step two0 (abc ++ [0])) /\
  spec_of two_step (false, false) two0 abc = [([97; 98], (100, 7)); ([32; 32], (-100, 7)); ([99], (100, 0))].
Proof.
  split; [|split; [vm_compute; split; discriminate|vm_compute; reflexivity]].
  constructor; [|constructor; [|constructor]]; intros j Hj; vm_compute in Hj;
    do 5 (destruct j as [|j]; [vm_compute; split; [discriminate|intros i Hi; do 3 (destruct i as [|i]; try discriminate Hi; try reflexivity)]|]); lia.
Qed.
Example C05_run_ex :
  (let* s := InitFromSlice deque_ops abc (NewSegmenter two0) in
   let* (os, _) := loop deque_ops two_step 10 s in Ok os) = Ok (spec_of two_step (false, false) two0 abc, true).
Proof. vm_compute. reflexivity. Qed.
(* Without the contract the claim fails: a breaker that reaches back behind its announced match. *)
Definition late_step (n : Z) (r : Z) : Z * Z * list Z := (n + 1, 0, if n =? 0 then [5] else if n =? 1 then [0; 10000] else if n =? 2 then [5] else []).
Theorem C05_contract_needed_refuted :
  exists b s1 outs s', InitFromSlice deque_ops b (NewSegmenter [0]) = Ok s1 /\
    loop deque_ops late_step 10 s1 = Ok (outs, true, s') /\ outs <> spec_of late_step (false, false) [0] b.
Proof.
  exists [97; 98; 99]. eexists _, _, _. split; [vm_compute; reflexivity|]. split; [vm_compute; reflexivity|].
  vm_compute. discriminate.
Qed.
Print Assumptions C05_contract_needed_refuted.

(* ---- C06 ---- *)
(* The break positions with and without secondary breakers (by C05 these are what the loop delivers):
   a primary break inside the decided text stays, with the same primary penalty; every other break is
   one of the secondary breakers. *)
Theorem C06_primary_breaks_kept :
  forall (B : Type) (bstep : B -> Z -> B * Z * list Z) z p ss rs, ss <> [] ->
    let R := reach (matrix bstep (p :: ss) (rs ++ [0])) in
    (forall e p0 p1, In (e, (p0, p1)) (ends 0 (spec_of bstep z [p] rs)) -> (e <= R)%nat ->
       exists p1', In (e, (p0, p1')) (ends 0 (spec_of bstep z (p :: ss) rs))) /\
    (forall e p0 p1, In (e, (p0, p1)) (ends 0 (spec_of bstep z (p :: ss) rs)) ->
       (e <= R)%nat /\ ((exists p1', In (e, (p0, p1')) (ends 0 (spec_of bstep z [p] rs))) \/ permits (snd z) p1 = true)).
Proof. exact @primary_kept. Qed.
Print Assumptions C06_primary_breaks_kept.
(* The same, for two segmenters at work. *)
Theorem C06_two_segmenters :
  forall (B : Type) (bstep : B -> Z -> B * Z * list Z) b0 b1 p ss b n, ss <> [] -> zlen b < MaxInt ->
    Forall (fun k => breaker_obeys bstep k (b ++ [0])) (p :: ss) ->
    eot_safe (matrix bstep [p] (b ++ [0])) -> eot_safe (matrix bstep (p :: ss) (b ++ [0])) ->
    longest (last (matrix bstep (p :: ss) (b ++ [0])) []) <= 1 ->
    (length b + 1 < n)%nat ->
    exists s1 s2 outs1 outs2 s1' s2',
      InitFromSlice deque_ops b (BreakOnZero b0 b1 (NewSegmenter [p])) = Ok s1 /\
      InitFromSlice deque_ops b (BreakOnZero b0 b1 (NewSegmenter (p :: ss))) = Ok s2 /\
      loop deque_ops bstep n s1 = Ok (outs1, true, s1') /\ loop deque_ops bstep n s2 = Ok (outs2, true, s2') /\
      (forall e p0 p1, In (e, (p0, p1)) (ends 0 outs1) -> exists p1', In (e, (p0, p1')) (ends 0 outs2)).
Proof.
  intros B bstep b0 b1 p ss b n Hs Tt Hb E1 E2 Ll Hn.
  assert (H1 : history deque_ops bstep [OBoz b0 b1] (NewSegmenter [p]) = Ok (BreakOnZero b0 b1 (NewSegmenter [p]))) by reflexivity.
  assert (H2 : history deque_ops bstep [OBoz b0 b1] (NewSegmenter (p :: ss)) = Ok (BreakOnZero b0 b1 (NewSegmenter (p :: ss)))) by reflexivity.
  assert (Ho : Forall op_ok [OBoz b0 b1]) by (repeat constructor).
  assert (Hb1 : Forall (fun k => breaker_obeys bstep k (b ++ [0])) [p]) by (inversion Hb; subst; constructor; auto).
  destruct (slice_cut bstep _ _ _ b n Ho H1 Tt (contract_obeys bstep [p] _ Hb1) E1 Hn) as (s1 & s1' & I1 & L1 & _).
  destruct (slice_cut bstep _ _ _ b n Ho H2 Tt (contract_obeys bstep (p :: ss) _ Hb) E2 Hn) as (s2 & s2' & I2 & L2 & _).
  exists s1, s2, (spec_of bstep (b0, b1) [p] b), (spec_of bstep (b0, b1) (p :: ss) b), s1', s2'.
  split; [exact I1|]. split; [exact I2|]. split; [exact L1|]. split; [exact L2|].
  intros e p0 p1 X. apply (proj1 (primary_kept bstep (b0, b1) p ss b Hs) e p0 p1 X).
  exact (break_inside bstep (b0, b1) p ss b E1 Ll e p0 p1 X).
Qed.
Print Assumptions C06_two_segmenters.
Example C06_ex : ends 0 (spec_of two_step (false, false) [Word NewSimpleWordBreaker] abc) = [(2%nat, (100, 0)); (4%nat, (-100, 0)); (5%nat, (100, 0))] /\
  longest (last (matrix two_step two0 (abc ++ [0])) []) <= 1 /\ eot_safe (matrix two_step [Word NewSimpleWordBreaker] (abc ++ [0])).
Proof. split; [vm_compute; reflexivity|]. split; vm_compute; [discriminate|split; discriminate]. Qed.

(* ---- C07 ---- *)
(* What holds, after any calls cs: as long as the end of text has not been read, the segment delivered
   by BoundedNext(b) is non-empty and ends at or before byte b; after that it may exceed the bound by
   one.  A false result before the end of text carries an error or the position is at the bound. *)
Theorem C07_bounded_partial :
  forall (B : Type) (bstep : B -> Z -> B * Z * list Z) os bs s rd cs b,
    Forall op_ok os -> history deque_ops bstep os (NewSegmenter bs) = Ok s -> Forall (fun it => 1 <= snd it) (items rd) ->
    exists s1 segs s2 c o s3, Init deque_ops rd s = Ok s1 /\
      run deque_ops bstep cs s1 =
        Ok (map (fun o => match o with Some (seg, p) => Some (firstn (Z.to_nat (init_limit (rbuf s))) seg, p) | None => None end) segs, s2) /\
      concat (map (fun o => match o with Some (seg, _) => seg | None => [] end) segs) =
        firstn c (map fst (items rd) ++ match fin rd with EOF => [0] | _ => [] end) /\
      exec deque_ops bstep (CBounded b) s2 = Ok (o, s3) /\
      match o with
      | Some (txt, _) =>
          exists n, txt = firstn (Z.to_nat (init_limit (rbuf s))) (firstn n (skipn c (map fst (items rd) ++ match fin rd with EOF => [0] | _ => [] end))) /\
            (atEOF s3 = false -> n <> 0%nat /\ sizes (firstn (c + n) (items rd)) <= b) /\
            (n <> 0%nat -> sizes (firstn (c + n) (items rd)) <= b + 1)
      | None => atEOF s3 = false -> Err s3 <> None \/
                (exists k, (c <= k)%nat /\ b <= sizes (firstn k (items rd)) - Z.of_nat (k - c))
      end.
Proof. exact @bounded_within. Qed.
Print Assumptions C07_bounded_partial.
Example C07_bounded_ex :
  (let* s := Init deque_ops (bytes1 abc) (NewSegmenter swb1) in
   let* (o, s') := exec deque_ops (swb_step sp) (CBounded 1) s in Ok (o, atEOF s')) = Ok (Some ([97], (0, 0)), false).
Proof. vm_compute. reflexivity. Qed.
(* Near the end of text the bound is exceeded. *)
Theorem C07_bound_exceeded_refuted :
  exists rd b s1 txt p s', Init deque_ops rd (NewSegmenter swb1) = Ok s1 /\
    exec deque_ops (swb_step sp) (CBounded b) s1 = Ok (Some (txt, p), s') /\ Forall (fun it => snd it = 1) (items rd) /\ zlen txt > b.
Proof.
  exists (bytes1 [97; 98; 99]), 2. eexists _, _, _, _.
  split; [vm_compute; reflexivity|]. split; [vm_compute; reflexivity|]. split; [repeat constructor|vm_compute; reflexivity].
Qed.
Print Assumptions C07_bound_exceeded_refuted.
(* A false result without any error although text follows. *)
Definition burst_step (n : Z) (r : Z) : Z * Z * list Z :=
  (n + 1, if n =? 2 then 0 else n + 1, if n =? 2 then [5; 5; 5] else []).
Theorem C07_false_without_error_refuted :
  exists rd cs s1 outs s', Init deque_ops rd (NewSegmenter [0]) = Ok s1 /\
    run deque_ops burst_step cs s1 = Ok (outs, s') /\ nth 1 outs (Some ([], (0, 0))) = None /\ Err s' = None /\ atEOF s' = false.
Proof.
  exists (bytes1 [97; 98; 99; 100]), [CNext; CBounded 1]. eexists _, _, _.
  split; [vm_compute; reflexivity|]. split; [vm_compute; reflexivity|]. split; [|split]; vm_compute; reflexivity.
Qed.
Print Assumptions C07_false_without_error_refuted.

(* ---- C08 ---- *)
(* Every call of Next or BoundedNext on a segmenter that was never initialised panics. *)
Theorem C08_uninitialised_panics_refuted :
  forall (B : Type) (bstep : B -> Z -> B * Z * list Z) bs cl,
    next deque_ops bstep (bound_of cl) (NewSegmenter bs) = Panic.
Proof. reflexivity. Qed.
Print Assumptions C08_uninitialised_panics_refuted.

(* ---- C09 ---- *)
(* What holds: after any history Init starts afresh as far as input, look-ahead and break position are
   concerned.  The segments depend only on the breakers' current state (and the settings). *)
Theorem C09_reinit_fresh_partial :
  forall (B : Type) (bstep : B -> Z -> B * Z * list Z) os1 bs1 s1 os2 bs2 s2 its n,
    Forall op_ok os1 -> history deque_ops bstep os1 (NewSegmenter bs1) = Ok s1 ->
    Forall op_ok os2 -> history deque_ops bstep os2 (NewSegmenter bs2) = Ok s2 ->
    brks s1 = brks s2 -> boz s1 = boz s2 -> init_limit (rbuf s1) = init_limit (rbuf s2) ->
    Forall (fun it => 1 <= snd it) its -> sizes its < MaxInt ->
    Forall (fun k => breaker_obeys bstep k (map fst its ++ [0])) (brks s1) -> (length its + 1 < n)%nat ->
    exists t1 t2 outs u1 u2, Init deque_ops (mkrd its EOF) s1 = Ok t1 /\ Init deque_ops (mkrd its EOF) s2 = Ok t2 /\
      loop deque_ops bstep n t1 = Ok (outs, true, u1) /\ loop deque_ops bstep n t2 = Ok (outs, true, u2).
Proof.
  intros B bstep os1 bs1 s1 os2 bs2 s2 its n O1 H1 O2 H2 Eb Ez El Sz Tt Hb Hn.
  destruct (reader_cut bstep os1 bs1 s1 its n O1 H1 Sz Tt (contract_obeys bstep _ _ Hb) Hn) as (t1 & u1 & I1 & L1 & _).
  rewrite Eb in Hb.
  destruct (reader_cut bstep os2 bs2 s2 its n O2 H2 Sz Tt (contract_obeys bstep _ _ Hb) Hn) as (t2 & u2 & I2 & L2 & _).
  rewrite <- Eb, <- Ez, <- El in L2. eexists t1, t2, _, u1, u2. split; [exact I1|]. split; [exact I2|]. split; [exact L1|exact L2].
Qed.
Print Assumptions C09_reinit_fresh_partial.
Example C09_ex : exists s, history deque_ops (swb_step sp) [OInit (bytes1 abc); OCall CNext] (NewSegmenter swb1) = Ok s /\ bpos s = -1 /\ err s = None.
Proof. eexists. split; [vm_compute; reflexivity|]. split; reflexivity. Qed.
(* Whatever happened before: after Init and before the first segment, the text is empty and the penalties are zero. *)
Theorem C09_blank :
  forall (B : Type) (bstep : B -> Z -> B * Z * list Z) os bs s s1,
    Forall op_ok os -> history deque_ops bstep os (NewSegmenter bs) = Ok s ->
    (exists rd, Init deque_ops rd s = Ok s1) \/ (exists b, InitFromSlice deque_ops b s = Ok s1) -> Text s1 = Ok [] /\ Penalties s1 = (0, 0).
Proof. intros B bstep os bs s s1. exact (blank bstep os bs s s1). Qed.
Print Assumptions C09_blank.
Example C09_blank_ex : exists s s1, history deque_ops (swb_step sp) [OInit (bytes1 abc); OCall CNext] (NewSegmenter swb1) = Ok s /\
  Text s <> Ok [] /\ Penalties s <> (0, 0) /\ Init deque_ops (bytes1 abc) s = Ok s1.
Proof. eexists. eexists. split; [vm_compute; reflexivity|]. split; [vm_compute; discriminate|]. split; [vm_compute; discriminate|]. vm_compute. reflexivity. Qed.
(* An error of an earlier text is still reported. *)
Theorem C09_stale_error_refuted :
  exists os s t u, history deque_ops (swb_step sp) os (NewSegmenter swb1) = Ok s /\
    Init deque_ops (bytes1 abc) s = Ok t /\ Err t = Some ErrBoundReached /\
    (let* (os, u) := loop deque_ops (swb_step sp) 10 t in Ok u) = Ok u /\ Err u = Some ErrBoundReached.
Proof.
  exists [OInit (bytes1 abc); OCall CNext; OCall (CBounded 1)]. eexists _, _, _.
  split; [vm_compute; reflexivity|]. split; [vm_compute; reflexivity|]. split; [vm_compute; reflexivity|].
  split; vm_compute; reflexivity.
Qed.
Print Assumptions C09_stale_error_refuted.
(* A breaker's state of an earlier text changes the segmentation of the next one. *)
Definition clock_step (n : Z) (r : Z) : Z * Z * list Z := (n + 1, 0, if (n mod 2 =? 1) && negb (r =? 0) then [7] else []).
Theorem C09_stale_breaker_refuted :
  exists os s, history deque_ops clock_step os (NewSegmenter [0]) = Ok s /\ Err s = None /\
    (let* t := Init deque_ops (bytes1 [97; 98; 99]) s in let* (os, _) := loop deque_ops clock_step 10 t in Ok os) <>
    (let* t := Init deque_ops (bytes1 [97; 98; 99]) (NewSegmenter [0]) in let* (os, _) := loop deque_ops clock_step 10 t in Ok os).
Proof.
  exists [OInit (bytes1 [97; 98]); OCall CNext; OCall CNext]. eexists. split; [vm_compute; reflexivity|].
  split; [reflexivity|]. vm_compute. discriminate.
Qed.
Print Assumptions C09_stale_breaker_refuted.

(* ---- C10 ---- *)
(* Same code points, any breakers: same segments and penalties; the reader variant shows at most
   [limit] runes of each segment (4096 for a new segmenter). *)
Theorem C10_reader_and_slice_agree_partial :
  forall (B : Type) (bstep : B -> Z -> B * Z * list Z) os bs s its b n,
    Forall op_ok os -> history deque_ops bstep os (NewSegmenter bs) = Ok s ->
    Forall (fun it => 1 <= snd it) its -> sizes its < MaxInt -> map fst its = b ->
    eot_safe (matrix bstep (brks s) (b ++ [0])) ->
    exists s1 s2 segs fl s' s'', Init deque_ops (mkrd its EOF) s = Ok s1 /\ InitFromSlice deque_ops b s = Ok s2 /\
      loop deque_ops bstep n s1 = Ok (map (fun x => (firstn (Z.to_nat (init_limit (rbuf s))) (fst x), snd x)) segs, fl, s') /\
      loop deque_ops bstep n s2 = Ok (segs, fl, s'').
Proof. exact @reader_slice_same. Qed.
Print Assumptions C10_reader_and_slice_agree_partial.
Example C10_ex :
  (let* s := Init deque_ops (bytes1 abc) (NewSegmenter two0) in let* (os, _) := loop deque_ops two_step 10 s in Ok os) =
  (let* s := InitFromSlice deque_ops abc (NewSegmenter two0) in let* (os, _) := loop deque_ops two_step 10 s in Ok os).
Proof. vm_compute. reflexivity. Qed.

(* ---- C11 ---- *)
(* A client buffer of three runes: the segment is cut to "abc", Err() reports nothing, the rest of the
   segment is never delivered. *)
Theorem C11_silent_cut_refuted :
  exists s0 s1 outs s', RuneBuffer [0; 0; 0] 3 3 (NewSegmenter swb1) = Ok s0 /\
    Init deque_ops (bytes1 [97; 98; 99; 100; 101; 102]) s0 = Ok s1 /\
    loop deque_ops (swb_step sp) 10 s1 = Ok (outs, true, s') /\ outs = [([97; 98; 99], (100, 0))] /\ Err s' = None.
Proof.
  eexists _, _, _, _. split; [vm_compute; reflexivity|]. split; [vm_compute; reflexivity|].
  split; [vm_compute; reflexivity|]. split; vm_compute; reflexivity.
Qed.
Print Assumptions C11_silent_cut_refuted.
(* The same with default settings, for every word longer than 4096 runes. *)
Theorem C11_default_buffer_refuted :
  forall n, (4096 < Z.of_nat n) -> Z.of_nat n < MaxInt ->
    exists s1 s', Init deque_ops (bytes1 (repeat 97 n)) (NewSegmenter swb1) = Ok s1 /\
      loop deque_ops (swb_step sp) (n + 2) s1 = Ok ([(repeat 97 (Z.to_nat 4096), (100, 0))], true, s') /\ Err s' = None.
Proof.
  intros n Hn Hm.
  destruct (long_word n Hn Hm) as (s1 & s' & I & L & E). exists s1, s'. split; [exact I|]. split; [exact L|exact E].
Qed.
Print Assumptions C11_default_buffer_refuted.
(* What holds: a segment within the limit is complete (C05_..._reader with firstn the identity), and
   slices are never cut (C05_..._slice). *)
Theorem C11_within_limit_complete_partial :
  forall (B : Type) (bstep : B -> Z -> B * Z * list Z) os bs s its n,
    Forall op_ok os -> history deque_ops bstep os (NewSegmenter bs) = Ok s ->
    Forall (fun it => 1 <= snd it) its -> sizes its < MaxInt ->
    Forall (fun k => breaker_obeys bstep k (map fst its ++ [0])) (brks s) -> (length its + 1 < n)%nat ->
    Forall (fun x => zlen (fst x) <= init_limit (rbuf s)) (spec_of bstep (boz s) (brks s) (map fst its)) ->
    exists s1 s', Init deque_ops (mkrd its EOF) s = Ok s1 /\
      loop deque_ops bstep n s1 = Ok (spec_of bstep (boz s) (brks s) (map fst its), true, s').
Proof.
  intros B bstep os bs s its n Ho H Sz Tt Hb Hn Hl.
  destruct (reader_cut bstep os bs s its n Ho H Sz Tt (contract_obeys bstep _ _ Hb) Hn) as (s1 & s' & I & L & _).
  rewrite (cut_to_limit _ _ Hl) in L. exists s1, s'. split; [exact I|exact L].
Qed.
Print Assumptions C11_within_limit_complete_partial.
Example C11_ex : Forall (fun x => zlen (fst x) <= init_limit (rbuf (NewSegmenter (Q := @Deque.deque atom) two0))) (spec_of two_step (false, false) two0 abc).
Proof. repeat constructor; vm_compute; discriminate. Qed.

(* ---- C12 ---- *)
(* After any earlier use of the segmenter: the segments of a NUL-free text are its maximal runs. *)
Theorem C12_maximal_runs_slice :
  forall (isSpace : Z -> bool) b n, isSpace 0 = false -> Forall (fun r => r <> 0) b -> zlen b < MaxInt -> (length b + 1 < n)%nat ->
    exists s1 s', InitFromSlice deque_ops b (NewSegmenter [NewSimpleWordBreaker]) = Ok s1 /\
      loop deque_ops (swb_step isSpace) n s1 = Ok (map (run_out isSpace) (runs isSpace b), true, s') /\ Err s' = None.
Proof. exact swb_slice. Qed.
Print Assumptions C12_maximal_runs_slice.
Theorem C12_maximal_runs_reader :
  forall (isSpace : Z -> bool) its n, isSpace 0 = false -> Forall (fun r => r <> 0) (map fst its) ->
    Forall (fun it => 1 <= snd it) its -> sizes its < MaxInt -> (length its + 1 < n)%nat ->
    Forall (fun w => zlen w <= 4096) (runs isSpace (map fst its)) ->
    exists s1 s', Init deque_ops (mkrd its EOF) (NewSegmenter [NewSimpleWordBreaker]) = Ok s1 /\
      loop deque_ops (swb_step isSpace) n s1 = Ok (map (run_out isSpace) (runs isSpace (map fst its)), true, s') /\ Err s' = None.
Proof. exact swb_reader. Qed.
Print Assumptions C12_maximal_runs_reader.
(* [runs] is the partition into maximal runs. *)
Theorem C12_runs_are_maximal :
  forall (isSpace : Z -> bool) l,
    concat (runs isSpace l) = l /\
    Forall (fun w => w <> [] /\ Forall (fun r => isSpace r = isSpace (hd 0 w)) w) (runs isSpace l) /\
    alternating isSpace (runs isSpace l).
Proof. intros. exact (conj (runs_concat isSpace l) (conj (runs_uniform isSpace l) (runs_alternate isSpace l))). Qed.
Print Assumptions C12_runs_are_maximal.
Example C12_ex : map (run_out sp) (runs sp abc) = [([97; 98], (100, 0)); ([32; 32], (-100, 0)); ([99], (100, 0))] /\ sp 0 = false.
Proof. split; vm_compute; reflexivity. Qed.
