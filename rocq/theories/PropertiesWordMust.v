(* PropertiesWordMust.v -- C82: penalties of word breaks.
   [table c r]: rune r is in the range table of class c; [pict r]: it is an emoji; both are arbitrary.  [front], [rest]: the runes before a delivered
   break, last first, and behind it (PropertiesLineMust.v); [reported]: the penalty is at most -10000. *)
From Coq Require Import List ZArith Lia Bool.
From Verif Require Import Base Segmenter SegSpec SegInv BreakSpec SegFirst Words WordSpec WordVerdict WordMust LineMustSpec PropertiesLineMust.
Import ListNotations.
Open Scope Z_scope.

(* Rules WB3a and WB3b of UAX#29: there is a break between the classes a and c whatever else is around (but for CR LF). *)
Definition newline_boundary (a c : Z) : bool := newline a || newline c.
(* the classes on both sides of a break *)
Definition before_class (cls : Z -> Z) (l : list Z) : Z := match l with [] => eot | a :: _ => cls a end.
Definition after_class (cls : Z -> Z) (r : list Z) : Z := match r with [] => eot | c :: _ => cls c end.

Lemma word_pen table pict text n : zlen text < MaxInt -> (length text + 1 < n)%nat ->
  exists s1 outs s', InitFromSlice deque_ops text (NewSegmenter [Some NewWordBreaker]) = Ok s1 /\ loop deque_ops (wb_step table pict) n s1 = Ok (outs, true, s') /\
    forall k seg p, nth_error outs k = Some (seg, p) ->
      let a := before_class (CodePointClassFor table pict) (front outs k) in let c := after_class (CodePointClassFor table pict) (rest outs k text) in
      text = rev (front outs k) ++ rest outs k text /\ reported (fst p) = (newline a || (c =? LF) || (c =? Newline)) /\ (reported (fst p) = false -> fst p = 10).
Proof.
  intros Tt Hn. destruct (word_pens table pict text n Tt Hn) as (s1 & outs & s' & E1 & E2 & H). exists s1, outs, s'. split; [auto|]. split; [auto|].
  intros k seg p Hk. cbv zeta. destruct (H k seg p Hk) as (i & Hi & Ec & V1 & V2).
  assert (Ef : front outs k = rev (firstn (S i) text)) by (unfold front; now rewrite Ec).
  assert (Er : rest outs k text = skipn (S i) text).
  { unfold rest. rewrite Ef, rev_length, firstn_length. f_equal. lia. }
  rewrite Er, Ef, rev_involutive, firstn_skipn. split; [reflexivity|].
  assert (El : before_class (CodePointClassFor table pict) (rev (firstn (S i) text)) = CodePointClassFor table pict (nth i text 0)).
  { rewrite rev_firstn_S by auto. reflexivity. }
  rewrite El, <- orb_assoc. split; [exact V1|]. unfold reported. intros R. apply Z.leb_gt in R. lia.
Qed.

(* At most -10000 is given to the breaks of WB3a and WB3b only; all other breaks have 10. *)
Theorem C82_reported_is_newline :
  forall table pict text n, zlen text < MaxInt -> (length text + 1 < n)%nat ->
    exists s1 outs s', InitFromSlice deque_ops text (NewSegmenter [Some NewWordBreaker]) = Ok s1 /\ loop deque_ops (wb_step table pict) n s1 = Ok (outs, true, s') /\
      forall k seg p, nth_error outs k = Some (seg, p) ->
        let a := before_class (CodePointClassFor table pict) (front outs k) in let c := after_class (CodePointClassFor table pict) (rest outs k text) in
        text = rev (front outs k) ++ rest outs k text /\ (reported (fst p) = true -> newline_boundary a c = true) /\ (newline_boundary a c = false -> fst p = 10).
Proof.
  intros table pict text n Tt Hn. destruct (word_pen table pict text n Tt Hn) as (s1 & outs & s' & E1 & E2 & H). exists s1, outs, s'. split; [auto|]. split; [auto|].
  intros k seg p Hk. cbv zeta. destruct (H k seg p Hk) as (T & A & B). split; [auto|]. set (a := before_class _ _) in *. set (c := after_class _ _) in *.
  unfold newline_boundary. unfold newline at 2 4. split.
  - intros R. rewrite R in A. destruct (newline a), (c =? LF), (c =? Newline), (c =? CR); cbn in *; congruence.
  - intros Hd. apply B. rewrite A. destruct (newline a), (c =? LF), (c =? Newline), (c =? CR); cbn in *; congruence.
Qed.
Print Assumptions C82_reported_is_newline.
(* The converse: behind line ends always, before them unless it is CR that follows. *)
Theorem C82_newline_is_reported_partial :
  forall table pict text n, zlen text < MaxInt -> (length text + 1 < n)%nat ->
    exists s1 outs s', InitFromSlice deque_ops text (NewSegmenter [Some NewWordBreaker]) = Ok s1 /\ loop deque_ops (wb_step table pict) n s1 = Ok (outs, true, s') /\
      forall k seg p, nth_error outs k = Some (seg, p) ->
        let a := before_class (CodePointClassFor table pict) (front outs k) in let c := after_class (CodePointClassFor table pict) (rest outs k text) in
        reported (fst p) = (newline a || (c =? LF) || (c =? Newline)).
Proof.
  intros table pict text n Tt Hn. destruct (word_pen table pict text n Tt Hn) as (s1 & outs & s' & E1 & E2 & H). exists s1, outs, s'. split; [auto|]. split; [auto|].
  intros k seg p Hk. cbv zeta. apply (H k seg p Hk).
Qed.
Print Assumptions C82_newline_is_reported_partial.
(* A reader gets the same penalties, both of them, with every segment. *)
Theorem C82_reader :
  forall table pict its n, Forall (fun it => 1 <= snd it) its -> sizes its < MaxInt -> (length its + 1 < n)%nat ->
    exists s1 outs s2 s1' outs' s2', InitFromSlice deque_ops (map fst its) (NewSegmenter [Some NewWordBreaker]) = Ok s1 /\ loop deque_ops (wb_step table pict) n s1 = Ok (outs, true, s2) /\
      Init deque_ops (mkrd its EOF) (NewSegmenter [Some NewWordBreaker]) = Ok s1' /\ loop deque_ops (wb_step table pict) n s1' = Ok (outs', true, s2') /\
      outs' = map (fun o => (firstn (Z.to_nat 4096) (fst o), snd o)) outs.
Proof.
  intros table pict its n Sz Tt Hn. apply first_both; auto. rewrite wmatrix. apply weot_safe.
Qed.
Print Assumptions C82_reader.

(* a small table: letters, a combining mark, apostrophe, CR, LF, NEL *)
Definition wtab (c r : Z) : bool :=
  if r =? 13 then c =? CR else if r =? 10 then c =? LF else if r =? 133 then c =? Newline else if r =? 776 then c =? Extend else if r =? 39 then c =? Single_Quote
  else if (97 <=? r) && (r <=? 122) then c =? ALetter else false.
Definition word_pairs (text : list Z) : res (list (list Z * (Z * Z))) :=
  let* s := InitFromSlice deque_ops text (NewSegmenter [Some NewWordBreaker]) in
  let* (outs, ok, s') := loop deque_ops (wb_step wtab (fun _ => false)) (length text + 2) s in Ok outs.
Example C82_ex :
  word_pairs [97; 776; 39; 98; 32; 10; 133; 99; 13; 10; 97; 39; 13; 98] =
    Ok [([97; 776; 39; 98], (10, 0)); ([32], (-10000, 0)); ([10], (-10000, 0)); ([133], (-10000, 0)); ([99], (10, 0)); ([13; 10], (-20000, 0)); ([97], (10, 0)); ([39], (10, 0)); ([13], (-10000, 0)); ([98], (10, 0))] /\
  newline_boundary ALetter LF = true /\ newline_boundary LF ALetter = true /\ newline_boundary ALetter CR = true /\ newline_boundary ALetter Other = false /\
  (let* s := Init deque_ops (mkrd [(97, 1); (10, 1); (228, 2)] EOF) (NewSegmenter [Some NewWordBreaker]) in
   let* (outs, ok, s') := loop deque_ops (wb_step wtab (fun _ => false)) 5 s in Ok outs) = Ok [([97], (-10000, 0)); ([10], (-10000, 0)); ([228], (10, 0))].
Proof. vm_compute. repeat split. Qed.
(* Before CR the break is not reported: the penalty for it is only known one rune later, when the break has been delivered. *)
Theorem C82_before_CR_refuted :
  word_pairs [97; 13; 98] = Ok [([97], (10, 0)); ([13], (-10000, 0)); ([98], (10, 0))] /\ word_pairs [97; 10; 98] = Ok [([97], (-10000, 0)); ([10], (-10000, 0)); ([98], (10, 0))] /\
  newline_boundary (CodePointClassFor wtab (fun _ => false) 97) (CodePointClassFor wtab (fun _ => false) 13) = true /\ reported 10 = false.
Proof. vm_compute. repeat split. Qed.
Print Assumptions C82_before_CR_refuted.
