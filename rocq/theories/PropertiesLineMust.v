(* PropertiesLineMust.v -- C80: mandatory line breaks and their penalties.
   [table] and [comb] as in PropertiesLine.v.  [outs] are the segments delivered by the loop "for seg.Next() { Bytes(), Penalties() }", with the two
   penalties of the break at their end.  For the break behind the segment number n, [before outs n] are the runes in front of it, last first, and
   [behind outs n text] those behind it. *)
From Coq Require Import List ZArith Lia Bool.
From Verif Require Import Base Segmenter SegSpec SegInv BreakSpec Line LineSum LineVerdict LineSpec LineCor LineAgree SegPens LineMustSpec LineMust PropertiesLine.
Import ListNotations.
Open Scope Z_scope.

Definition front (outs : list (list Z * (Z * Z))) (n : nat) : list Z := rev (concat (map fst (firstn (S n) outs))).
Definition rest (outs : list (list Z * (Z * Z))) (n : nat) (text : list Z) : list Z := skipn (length (front outs n)) text.

Lemma line_pen table comb text n : zlen text < MaxInt -> (length text + 1 < n)%nat ->
  exists s1 outs s', InitFromSlice deque_ops text (NewSegmenter [Some NewLineWrap]) = Ok s1 /\ loop deque_ops (lb_step table comb) n s1 = Ok (outs, true, s') /\
    forall k seg p, nth_error outs k = Some (seg, p) ->
      let l := map (lcls table comb) (front outs k) in let r := map (lcls table comb) (rest outs k text) in
      text = rev (front outs k) ++ rest outs k text /\
      (mandatory l r = false -> -1000 < fst p) /\
      (next_class r <> eot -> reported (fst p) = seen_hard l (next_class r)) /\
      (next_class r = eot -> fst p < -8000 /\ (one_of (next_class l) hides_end = false -> reported (fst p) = true)).
Proof.
  intros Tt Hn. destruct (line_pens table comb text n Tt Hn) as (s1 & outs & s' & E1 & E2 & E3 & _). exists s1, outs, s'. split; [auto|]. split; [auto|].
  intros k seg p Hk. set (cs := map (lcls table comb) text) in *. cbv zeta.
  assert (Hk' : nth_error (pcut (LV cs) (LP cs) 0 text []) k = Some (seg, fst p)).
  { rewrite <- E3. rewrite nth_error_map, Hk. reflexivity. }
  destruct (pcut_nth _ _ _ _ _ _ _ _ Hk') as (i & Hi & Vi & Ep & Ec). cbn [Nat.add] in Vi, Ep. rewrite app_nil_l in Ec.
  assert (Ef : front outs k = rev (firstn (S i) text)).
  { unfold front. f_equal. rewrite <- Ec. f_equal. rewrite <- E3, firstn_map, map_map. reflexivity. }
  assert (Er : rest outs k text = skipn (S i) text).
  { unfold rest. rewrite Ef, rev_length, firstn_length. f_equal. lia. }
  rewrite Er, Ef, rev_involutive, firstn_skipn. split; [reflexivity|]. rewrite map_rev, <- firstn_map, <- skipn_map, Ep.
  apply (LP_facts cs); auto; [apply classes_ok|unfold cs; now rewrite map_length].
Qed.

(* A penalty of -10000 or less is only given to mandatory breaks; all others have more than -1000. *)
Theorem C80_reported_is_mandatory :
  forall table comb text n, zlen text < MaxInt -> (length text + 1 < n)%nat ->
    exists s1 outs s', InitFromSlice deque_ops text (NewSegmenter [Some NewLineWrap]) = Ok s1 /\ loop deque_ops (lb_step table comb) n s1 = Ok (outs, true, s') /\
      forall k seg p, nth_error outs k = Some (seg, p) ->
        let l := map (lcls table comb) (front outs k) in let r := map (lcls table comb) (rest outs k text) in
        text = rev (front outs k) ++ rest outs k text /\
        (reported (fst p) = true -> mandatory l r = true) /\ (mandatory l r = false -> -1000 < fst p).
Proof.
  intros table comb text n Tt Hn. destruct (line_pen table comb text n Tt Hn) as (s1 & outs & s' & E1 & E2 & H). exists s1, outs, s'. split; [auto|]. split; [auto|].
  intros k seg p Hk. cbv zeta. destruct (H k seg p Hk) as (T & A & _). split; [auto|]. split; [|auto].
  intros R. destruct (mandatory _ _); [reflexivity|]. specialize (A eq_refl). unfold reported in R. apply Z.leb_le in R. lia.
Qed.
Print Assumptions C80_reported_is_mandatory.

(* Within the text the converse holds exactly where [seen_hard] says so: behind LF, BK, NL unless one of 17 classes follows, behind CR unless one of
   5 classes follows, and always behind CR LF. *)
Theorem C80_mandatory_is_reported_partial :
  forall table comb text n, zlen text < MaxInt -> (length text + 1 < n)%nat ->
    exists s1 outs s', InitFromSlice deque_ops text (NewSegmenter [Some NewLineWrap]) = Ok s1 /\ loop deque_ops (lb_step table comb) n s1 = Ok (outs, true, s') /\
      forall k seg p, nth_error outs k = Some (seg, p) ->
        let l := map (lcls table comb) (front outs k) in let r := map (lcls table comb) (rest outs k text) in
        next_class r <> eot -> reported (fst p) = seen_hard l (next_class r).
Proof.
  intros table comb text n Tt Hn. destruct (line_pen table comb text n Tt Hn) as (s1 & outs & s' & E1 & E2 & H). exists s1, outs, s'. split; [auto|]. split; [auto|].
  intros k seg p Hk. cbv zeta. apply (H k seg p Hk).
Qed.
Print Assumptions C80_mandatory_is_reported_partial.

(* The break at the end of the text is reported unless one of 8 classes is last; and it can always be told from optional ones. *)
Theorem C80_end_is_reported_partial :
  forall table comb text n, zlen text < MaxInt -> (length text + 1 < n)%nat ->
    exists s1 outs s', InitFromSlice deque_ops text (NewSegmenter [Some NewLineWrap]) = Ok s1 /\ loop deque_ops (lb_step table comb) n s1 = Ok (outs, true, s') /\
      forall k seg p, nth_error outs k = Some (seg, p) ->
        let l := map (lcls table comb) (front outs k) in let r := map (lcls table comb) (rest outs k text) in
        next_class r = eot -> fst p < -8000 /\ (one_of (next_class l) hides_end = false -> reported (fst p) = true).
Proof.
  intros table comb text n Tt Hn. destruct (line_pen table comb text n Tt Hn) as (s1 & outs & s' & E1 & E2 & H). exists s1, outs, s'. split; [auto|]. split; [auto|].
  intros k seg p Hk. cbv zeta. apply (H k seg p Hk).
Qed.
Print Assumptions C80_end_is_reported_partial.

(* From a reader come the same penalties, with the same segments (of each at most 4096 runes are shown, C11). *)
Theorem C80_reader :
  forall table comb its n, Forall (fun it => 1 <= snd it) its -> sizes its < MaxInt -> (length its + 1 < n)%nat ->
    exists s1 outs s2 s1' outs' s2', InitFromSlice deque_ops (map fst its) (NewSegmenter [Some NewLineWrap]) = Ok s1 /\ loop deque_ops (lb_step table comb) n s1 = Ok (outs, true, s2) /\
      Init deque_ops (mkrd its EOF) (NewSegmenter [Some NewLineWrap]) = Ok s1' /\ loop deque_ops (lb_step table comb) n s1' = Ok (outs', true, s2') /\
      map (fun o => (fst o, fst (snd o))) outs' = map (fun o => (firstn (Z.to_nat 4096) (fst o), fst (snd o))) outs.
Proof.
  intros table comb its n Sz Tt Hn.
  assert (Tl : zlen (map fst its) < MaxInt).
  { assert (X : zlen its <= sizes its); [|unfold zlen in *; rewrite map_length; lia]. clear -Sz. induction Sz as [|x l H F IH]; [cbn; lia|]. rewrite zlen_cons. unfold sizes in *. cbn [map fold_right]. lia. }
  destruct (line_pens table comb (map fst its) n Tl ltac:(rewrite map_length; auto)) as (s1 & outs & s2 & E1 & E2 & E3 & _).
  destruct (line_pens_reader table comb its n Sz Tt Hn) as (s1' & outs' & s2' & F1 & F2 & F3 & _).
  exists s1, outs, s2, s1', outs', s2'. split; [auto|]. split; [auto|]. split; [auto|]. split; [auto|]. rewrite F3, <- E3, map_map. reflexivity.
Qed.
Print Assumptions C80_reader.
Example C80_reader_ex : Forall (fun it => 1 <= snd it) [(97, 1); (228, 2); (10, 1); (98, 1)] /\
  (let* s := Init deque_ops (mkrd [(97, 1); (228, 2); (10, 1); (98, 1)] EOF) (NewSegmenter [Some NewLineWrap]) in
   let* (outs, ok, s') := loop deque_ops (lb_step ltab nocomb) 6 s in Ok (map (fun o => (fst o, fst (snd o))) outs)) = Ok [([97; 228; 10], -18999); ([98], -19000)].
Proof. split; [repeat constructor; cbn; lia|vm_compute; reflexivity]. Qed.

Definition line_pairs (table : Z -> Z -> bool) (text : list Z) : res (list (list Z * (Z * Z))) :=
  let* s := InitFromSlice deque_ops text (NewSegmenter [Some NewLineWrap]) in
  let* (outs, ok, s') := loop deque_ops (lb_step table nocomb) (length text + 2) s in Ok outs.

(* non-vacuity: "a LF b", "a CR LF LF b", "a b": the breaks behind LF and at the end are reported, the one behind the space is not *)
Example C80_ex :
  line_pairs ltab [97; 10; 98] = Ok [([97; 10], (-18999, 0)); ([98], (-19000, 0))] /\
  line_pairs ltab [97; 13; 10; 10; 98] = Ok [([97; 13; 10], (-18000, 0)); ([10], (-18999, 0)); ([98], (-19000, 0))] /\
  line_pairs ltab [97; 32; 98] = Ok [([97; 32], (-29, 0)); ([98], (-19000, 0))] /\
  mandatory [LF; AL] [AL] = true /\ mandatory [SP; AL] [AL] = false /\ mandatory [AL] [] = true /\
  seen_hard [LF; AL] AL = true /\ seen_hard [LF; AL] LF = false /\ seen_hard [LF; CR; AL] LF = true /\ seen_hard [CR; AL] LF = true /\ seen_hard [CR; AL] SP = false /\
  seen_hard [SP; AL] AL = false /\ next_class [AL] <> eot /\ one_of (next_class [AL]) hides_end = false /\
  reported (-18999) = true /\ reported (-10000) = true /\ reported (-9999) = false.
Proof. vm_compute. repeat (split; [reflexivity|]). split; [discriminate|]. repeat split. Qed.

(* The converse fails: an empty line.  "a a LF LF b" with a space between the first two: the mandatory break behind the first LF has the penalty 1000,
   more than the optional break behind the space has.  So no threshold tells mandatory breaks from optional ones. *)
Theorem C80_mandatory_breaks_refuted :
  exists text outs p q, line_pairs ltab text = Ok outs /\
    nth_error outs 0 = Some ([97; 32], q) /\ mandatory (map tcls (front outs 0)) (map tcls (rest outs 0 text)) = false /\
    nth_error outs 1 = Some ([97; 10], p) /\ mandatory (map tcls (front outs 1)) (map tcls (rest outs 1 text)) = true /\
    fst p = 1000 /\ reported (fst p) = false /\ fst q < fst p.
Proof.
  exists [97; 32; 97; 10; 10; 98], [([97; 32], (-29, 0)); ([97; 10], (1000, 0)); ([10], (-18999, 0)); ([98], (-19000, 0))], (1000, 0), (-29, 0).
  vm_compute. repeat split.
Qed.
Print Assumptions C80_mandatory_breaks_refuted.
(* The end of the text, behind a quotation mark. *)
Definition qtab (c r : Z) : bool := if r =? 34 then c =? QU else ltab c r.
Theorem C80_end_refuted :
  exists text p, line_pairs qtab text = Ok [(text, p)] /\ mandatory (map (lcls qtab nocomb) (rev text)) [] = true /\ reported (fst p) = false.
Proof. exists [97; 34], (-8977, 0). vm_compute. repeat split. Qed.
Print Assumptions C80_end_refuted.
