(* PropertiesGraphemeMust.v -- C81: penalties of grapheme cluster breaks.
   [table c r]: rune r is in the range table of class c; [pict r]: it is an emoji; both are arbitrary.  [front], [rest]: the runes before a delivered
   break, last first, and behind it (PropertiesLineMust.v); [reported]: the penalty is at most -10000. *)
From Coq Require Import List ZArith Lia Bool.
From Verif Require Import Base Segmenter SegSpec SegInv BreakSpec Grapheme GraphemeSpec GraphemeProofs SegPens LineMustSpec GraphemeMust PropertiesLineMust.
Import ListNotations.
Open Scope Z_scope.

(* Rules GB4 and GB5 of UAX#29: there is a break between the classes a and c whatever else is around (but for CR LF). *)
Definition hard_boundary (a c : Z) : bool := newline_or_control a || newline_or_control c.
(* the classes on both sides of a break *)
Definition left_class (cls : Z -> Z) (l : list Z) : Z := match l with [] => eot | a :: _ => cls a end.
Definition right_class (cls : Z -> Z) (r : list Z) : Z := match r with [] => eot | c :: _ => cls c end.

Lemma grapheme_pen table pict text n : zlen text < MaxInt -> (length text + 1 < n)%nat ->
  exists s1 outs s', InitFromSlice deque_ops text (NewSegmenter [Some NewBreaker]) = Ok s1 /\ loop deque_ops (gb_step table pict) n s1 = Ok (outs, true, s') /\
    forall k seg p, nth_error outs k = Some (seg, p) ->
      let a := left_class (CodePointClassFor table pict) (front outs k) in let c := right_class (CodePointClassFor table pict) (rest outs k text) in
      text = rev (front outs k) ++ rest outs k text /\ reported (fst p) = (newline_or_control a || is_one_of c [LF; Control]) /\
      (reported (fst p) = false -> fst p = if a =? Prepend then 9990 else -10).
Proof.
  intros Tt Hn. destruct (grapheme_pens table pict text n Tt Hn) as (s1 & outs & s' & E1 & E2 & E3 & _). exists s1, outs, s'. split; [auto|]. split; [auto|].
  intros k seg p Hk. cbv zeta.
  assert (Hk' : nth_error (pcut (GV table pict text) (GP table pict text) 0 text []) k = Some (seg, fst p)).
  { rewrite <- E3. rewrite nth_error_map, Hk. reflexivity. }
  destruct (pcut_nth _ _ _ _ _ _ _ _ Hk') as (i & Hi & Vi & Ep & Ec). cbn [Nat.add] in Vi, Ep. rewrite app_nil_l in Ec.
  assert (Ef : front outs k = rev (firstn (S i) text)).
  { unfold front. f_equal. rewrite <- Ec. f_equal. rewrite <- E3, firstn_map, map_map. reflexivity. }
  assert (Er : rest outs k text = skipn (S i) text).
  { unfold rest. rewrite Ef, rev_length, firstn_length. f_equal. lia. }
  rewrite Er, Ef, rev_involutive, firstn_skipn. split; [reflexivity|]. rewrite Ep.
  assert (El : left_class (CodePointClassFor table pict) (rev (firstn (S i) text)) = CodePointClassFor table pict (nth i text 0)).
  { rewrite (firstn_S text i 0 Hi), rev_app_distr. reflexivity. }
  rewrite El. exact (GP_facts table pict text i Hi Vi).
Qed.

(* At most -10000 is given to the breaks of GB4 and GB5 only; all other breaks have -10, or 9990 behind a prepended character. *)
Theorem C81_reported_is_hard :
  forall table pict text n, zlen text < MaxInt -> (length text + 1 < n)%nat ->
    exists s1 outs s', InitFromSlice deque_ops text (NewSegmenter [Some NewBreaker]) = Ok s1 /\ loop deque_ops (gb_step table pict) n s1 = Ok (outs, true, s') /\
      forall k seg p, nth_error outs k = Some (seg, p) ->
        let a := left_class (CodePointClassFor table pict) (front outs k) in let c := right_class (CodePointClassFor table pict) (rest outs k text) in
        text = rev (front outs k) ++ rest outs k text /\ (reported (fst p) = true -> hard_boundary a c = true) /\
        (hard_boundary a c = false -> fst p = if a =? Prepend then 9990 else -10).
Proof.
  intros table pict text n Tt Hn. destruct (grapheme_pen table pict text n Tt Hn) as (s1 & outs & s' & E1 & E2 & H). exists s1, outs, s'. split; [auto|]. split; [auto|].
  intros k seg p Hk. cbv zeta. destruct (H k seg p Hk) as (T & A & B). split; [auto|]. set (a := left_class _ _) in *. set (c := right_class _ _) in *.
  assert (I : newline_or_control c = false -> is_one_of c [LF; Control] = false).
  { unfold newline_or_control, is_one_of. cbn [existsb]. destruct (c =? Control), (c =? CR), (c =? LF); cbn; congruence. }
  unfold hard_boundary. split.
  - intros R. rewrite R in A. destruct (newline_or_control a); [reflexivity|]. destruct (newline_or_control c); [reflexivity|]. rewrite I in A by auto. discriminate.
  - intros Hd. apply orb_false_iff in Hd. destruct Hd as [H1 H2]. apply B. rewrite A, H1, I; auto.
Qed.
Print Assumptions C81_reported_is_hard.
(* The converse: behind line ends and control characters always, before them unless it is CR that follows. *)
Theorem C81_hard_is_reported_partial :
  forall table pict text n, zlen text < MaxInt -> (length text + 1 < n)%nat ->
    exists s1 outs s', InitFromSlice deque_ops text (NewSegmenter [Some NewBreaker]) = Ok s1 /\ loop deque_ops (gb_step table pict) n s1 = Ok (outs, true, s') /\
      forall k seg p, nth_error outs k = Some (seg, p) ->
        let a := left_class (CodePointClassFor table pict) (front outs k) in let c := right_class (CodePointClassFor table pict) (rest outs k text) in
        reported (fst p) = (newline_or_control a || is_one_of c [LF; Control]).
Proof.
  intros table pict text n Tt Hn. destruct (grapheme_pen table pict text n Tt Hn) as (s1 & outs & s' & E1 & E2 & H). exists s1, outs, s'. split; [auto|]. split; [auto|].
  intros k seg p Hk. cbv zeta. apply (H k seg p Hk).
Qed.
Print Assumptions C81_hard_is_reported_partial.
(* A reader gets the same penalties. *)
Theorem C81_reader :
  forall table pict its n, Forall (fun it => 1 <= snd it) its -> sizes its < MaxInt -> (length its + 1 < n)%nat ->
    exists s1 outs s2 s1' outs' s2', InitFromSlice deque_ops (map fst its) (NewSegmenter [Some NewBreaker]) = Ok s1 /\ loop deque_ops (gb_step table pict) n s1 = Ok (outs, true, s2) /\
      Init deque_ops (mkrd its EOF) (NewSegmenter [Some NewBreaker]) = Ok s1' /\ loop deque_ops (gb_step table pict) n s1' = Ok (outs', true, s2') /\
      map (fun o => (fst o, fst (snd o))) outs' = map (fun o => (firstn (Z.to_nat 4096) (fst o), fst (snd o))) outs.
Proof.
  intros table pict its n Sz Tt Hn.
  assert (Tl : zlen (map fst its) < MaxInt).
  { assert (X : zlen its <= sizes its); [|unfold zlen in *; rewrite map_length; lia]. clear -Sz. induction Sz as [|x l H F IH]; [cbn; lia|]. rewrite zlen_cons. unfold sizes in *. cbn [map fold_right]. lia. }
  destruct (grapheme_pens table pict (map fst its) n Tl ltac:(rewrite map_length; auto)) as (s1 & outs & s2 & E1 & E2 & E3 & _).
  destruct (grapheme_pens_reader table pict its n Sz Tt Hn) as (s1' & outs' & s2' & F1 & F2 & F3 & _).
  exists s1, outs, s2, s1', outs', s2'. split; [auto|]. split; [auto|]. split; [auto|]. split; [auto|]. rewrite F3, <- E3, map_map. reflexivity.
Qed.
Print Assumptions C81_reader.

(* a small table: CR, LF, a control character, a combining mark, a prepended character *)
Definition gtab (c r : Z) : bool := if r =? 13 then c =? CR else if r =? 10 then c =? LF else if r =? 1 then c =? Control else if r =? 776 then c =? Extend else if r =? 1536 then c =? Prepend else false.
Definition nopict (r : Z) : bool := false.
Definition cluster_pairs (text : list Z) : res (list (list Z * (Z * Z))) :=
  let* s := InitFromSlice deque_ops text (NewSegmenter [Some NewBreaker]) in
  let* (outs, ok, s') := loop deque_ops (gb_step gtab nopict) (length text + 2) s in Ok outs.
Example C81_ex :
  cluster_pairs [97; 776; 98; 10; 1; 99; 1536; 97; 13; 10; 97] =
    Ok [([97; 776], (-10, 0)); ([98], (-20000, 0)); ([10], (-40000, 0)); ([1], (-20010, 0)); ([99], (-10, 0)); ([1536], (9990, 0)); ([97], (-10, 0)); ([13; 10], (-40010, 0)); ([97], (-10, 0))] /\
  hard_boundary Any LF = true /\ hard_boundary LF Any = true /\ hard_boundary Any CR = true /\ hard_boundary Any Any = false /\
  (let* s := Init deque_ops (mkrd [(97, 1); (10, 1); (228, 2)] EOF) (NewSegmenter [Some NewBreaker]) in
   let* (outs, ok, s') := loop deque_ops (gb_step gtab nopict) 5 s in Ok outs) = Ok [([97], (-20000, 0)); ([10], (-20010, 0)); ([228], (-10, 0))].
Proof. vm_compute. repeat split. Qed.
(* Before CR the break is not reported: the penalty for it is only known one rune later, when the break has been delivered.  Behind a prepended character
   it even has 9990. *)
Theorem C81_before_CR_refuted :
  cluster_pairs [97; 13; 98] = Ok [([97], (-10, 0)); ([13], (-20000, 0)); ([98], (-10, 0))] /\
  cluster_pairs [1536; 13; 98] = Ok [([1536], (9990, 0)); ([13], (-20000, 0)); ([98], (-10, 0))] /\
  hard_boundary (CodePointClassFor gtab nopict 97) (CodePointClassFor gtab nopict 13) = true /\ reported (-10) = false /\ reported 9990 = false.
Proof. vm_compute. repeat split. Qed.
Print Assumptions C81_before_CR_refuted.
