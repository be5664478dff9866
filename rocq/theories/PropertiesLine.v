(* PropertiesLine.v -- C25, C26, C39: line wrapping.
   [table c r] says whether rune r is in the range table of class c, [comb r] whether it is a combining
   mark (Mn or Mc); both are arbitrary.  [lcls] is the class of a rune after LB1. *)
From Coq Require Import List ZArith Lia Bool.
From Verif Require Import Base RuneWrite Segmenter SegInv BreakSpec BreakSpecProofs Line LineSum LineSpec LineCor LineAgree.
Import ListNotations.
Open Scope Z_scope.

(* a small class table *)
Definition ltab (c r : Z) : bool :=
  if r =? 10 then c =? LF else if r =? 11 then c =? BK else if r =? 13 then c =? CR else if r =? 32 then c =? SP else if r =? 36 then c =? PR
  else if r =? 37 then c =? PO else if r =? 40 then c =? OP else if r =? 41 then c =? CP else if r =? 45 then c =? HY else if r =? 46 then c =? IS
  else if r =? 776 then c =? CM else if r =? 8203 then c =? ZW else if r =? 8205 then c =? ZWJ else if r =? 128640 then c =? ID
  else if (48 <=? r) && (r <=? 57) then c =? NU else if (1488 <=? r) && (r <=? 1514) then c =? HL
  else if (127462 <=? r) && (r <=? 127487) then c =? RI else if (65 <=? r) && (r <=? 122) then c =? AL else false.
Definition nocomb (r : Z) : bool := false.
Notation tcls := (lcls ltab nocomb).
Definition lines (text : list Z) : res (list (list Z)) :=
  let* s := InitFromSlice deque_ops text (NewSegmenter [Some NewLineWrap]) in
  let* (outs, ok, s') := loop deque_ops (lb_step ltab nocomb) (length text + 2) s in Ok (map fst outs).

(* ---- C39 ---- *)
(* For every text whatsoever the delivered segments are those of the rules of UAX#14, with the five
   deviations in the treatment of combining marks that code_ctx lists. *)
Theorem C39_line_breaks_of_code :
  forall table comb text n, zlen text < MaxInt -> (length text + 1 < n)%nat ->
    exists s1 outs s', InitFromSlice deque_ops text (NewSegmenter [Some NewLineWrap]) = Ok s1 /\
      loop deque_ops (lb_step table comb) n s1 = Ok (outs, true, s') /\
      map fst outs = segmentation (line_break code_break (lcls table comb)) text /\ Err s' = None.
Proof. exact line_slice. Qed.
Print Assumptions C39_line_breaks_of_code.
(* Outside of these five contexts a position is decided as UAX#14 demands. *)
Theorem C39_five_deviations :
  forall l r, quirk l r = false -> code_break l r = uax14_break l r.
Proof. exact agree. Qed.
Print Assumptions C39_five_deviations.
Example C39_five_ex : quirk [CM; AL] [AL] = false /\ quirk [ZWJ; AL] [ID] = true /\ quirk [CM; HY; HL] [AL] = true /\
  quirk [CM; RI; RI] [RI] = true /\ quirk [PR] [OP; CM; NU] = true /\ quirk [CM; CP; NU] [PO] = true.
Proof. vm_compute. repeat split. Qed.
(* Whole texts: no mark directly behind RI, HY, BA, OP, CL, CP and no ZWJ directly before ID, EB, EM. *)
Theorem C39_line_breaks_partial :
  forall table comb text n, zlen text < MaxInt -> (length text + 1 < n)%nat ->
    calm_marks (map (lcls table comb) text) = true ->
    exists s1 outs s', InitFromSlice deque_ops text (NewSegmenter [Some NewLineWrap]) = Ok s1 /\
      loop deque_ops (lb_step table comb) n s1 = Ok (outs, true, s') /\
      map fst outs = segmentation (line_break uax14_break (lcls table comb)) text /\ Err s' = None.
Proof.
  intros table comb text n Tt Hn Hc. rewrite <- (segmentation_agree _ text Hc). exact (line_slice table comb text n Tt Hn).
Qed.
Print Assumptions C39_line_breaks_partial.
(* in particular: all texts without combining marks *)
Theorem C39_line_breaks_no_marks_partial :
  forall table comb text n, zlen text < MaxInt -> (length text + 1 < n)%nat ->
    Forall (fun r => mark (lcls table comb r) = false) text ->
    exists s1 outs s', InitFromSlice deque_ops text (NewSegmenter [Some NewLineWrap]) = Ok s1 /\
      loop deque_ops (lb_step table comb) n s1 = Ok (outs, true, s') /\
      map fst outs = segmentation (line_break uax14_break (lcls table comb)) text /\ Err s' = None.
Proof.
  intros table comb text n Tt Hn Hc. apply C39_line_breaks_partial; auto. apply no_marks_calm.
  apply Forall_forall. intros c Ic. apply in_map_iff in Ic. destruct Ic as (r & <- & Ir). rewrite Forall_forall in Hc. auto.
Qed.
Print Assumptions C39_line_breaks_no_marks_partial.
(* From a reader: the same, each segment cut to the 4096 runes of the buffer (see C11). *)
Theorem C39_line_breaks_reader_partial :
  forall table comb its n, Forall (fun it => 1 <= snd it) its -> sizes its < MaxInt -> (length its + 1 < n)%nat ->
    calm_marks (map (lcls table comb) (map fst its)) = true ->
    exists s1 outs s', Init deque_ops (mkrd its EOF) (NewSegmenter [Some NewLineWrap]) = Ok s1 /\
      loop deque_ops (lb_step table comb) n s1 = Ok (outs, true, s') /\
      map fst outs = map (firstn (Z.to_nat 4096)) (segmentation (line_break uax14_break (lcls table comb)) (map fst its)) /\ Err s' = None.
Proof.
  intros table comb its n Sz Tt Hn Hc. rewrite <- (segmentation_agree _ _ Hc). exact (line_reader table comb its n Sz Tt Hn).
Qed.
Print Assumptions C39_line_breaks_reader_partial.
(* "Na U+0308 me: ($1.50)%-5 CR LF x" *)
Definition lsample : list Z := [78; 97; 776; 109; 101; 46; 32; 40; 36; 49; 46; 53; 48; 41; 37; 45; 53; 13; 10; 120].
Example C39_ex : calm_marks (map tcls lsample) = true /\
  segmentation (line_break uax14_break tcls) lsample =
    [[78; 97; 776; 109; 101; 46; 32]; [40; 36; 49; 46; 53; 48; 41; 37; 45; 53; 13; 10]; [120]] /\
  lines lsample = Ok (segmentation (line_break uax14_break tcls) lsample).
Proof. split; [vm_compute; reflexivity|]. split; vm_compute; reflexivity. Qed.

(* The deviations are real: LB8a is never applied ... *)
Theorem C39_LB8a_refuted :
  exists text, map tcls text = [AL; ZWJ; ID] /\ segmentation (line_break uax14_break tcls) text = [text] /\ lines text = Ok [[65; 8205]; [128640]].
Proof. exists [65; 8205; 128640]. split; [reflexivity|]. split; vm_compute; reflexivity. Qed.
Print Assumptions C39_LB8a_refuted.
(* ... LB21a is lost behind a mark ... *)
Theorem C39_LB21a_refuted :
  exists text, map tcls text = [HL; HY; CM; AL] /\ segmentation (line_break uax14_break tcls) text = [text] /\ lines text = Ok [[1488; 45; 776]; [65]].
Proof. exists [1488; 45; 776; 65]. split; [reflexivity|]. split; vm_compute; reflexivity. Qed.
Print Assumptions C39_LB21a_refuted.
(* ... a mark behind a pair of regional indicators opens a new pair (LB30a) ... *)
Theorem C39_LB30a_refuted :
  exists text, map tcls text = [RI; RI; CM; RI] /\ segmentation (line_break uax14_break tcls) text = [[127462; 127463; 776]; [127464]] /\ lines text = Ok [text].
Proof. exists [127462; 127463; 776; 127464]. split; [reflexivity|]. split; vm_compute; reflexivity. Qed.
Print Assumptions C39_LB30a_refuted.
(* ... and numbers are torn apart (LB25), before an opening bracket or hyphen with a mark and behind a
   closing bracket with a mark. *)
Theorem C39_LB25_refuted :
  (exists text, map tcls text = [PR; OP; CM; NU] /\ segmentation (line_break uax14_break tcls) text = [text] /\ lines text = Ok [[36]; [40; 776; 49]]) /\
  (exists text, map tcls text = [NU; CP; CM; PO] /\ segmentation (line_break uax14_break tcls) text = [text] /\ lines text = Ok [[49; 41; 776]; [37]]).
Proof.
  split.
  - exists [36; 40; 776; 49]. split; [reflexivity|]. split; vm_compute; reflexivity.
  - exists [49; 41; 776; 37]. split; [reflexivity|]. split; vm_compute; reflexivity.
Qed.
Print Assumptions C39_LB25_refuted.

(* ---- C25 ---- *)
(* A position inside a text with runes a before and b after it. *)
Definition at_break table comb (l : list Z) (a b : Z) (r : list Z) (P : Prop -> Prop) : Prop :=
  forall n, let text := l ++ a :: b :: r in zlen text < MaxInt -> (length text + 1 < n)%nat ->
    exists s1 outs s', InitFromSlice deque_ops text (NewSegmenter [Some NewLineWrap]) = Ok s1 /\
      loop deque_ops (lb_step table comb) n s1 = Ok (outs, true, s') /\ P (In (S (length l)) (bounds 0 (map fst outs))).
Lemma at_position table comb l a b r (P : Prop -> Prop) : let cls := lcls table comb in
  (forall Q : Prop, (Q <-> code_break (cls a :: map cls (rev l)) (cls b :: map cls r) = true) -> P Q) -> at_break table comb l a b r P.
Proof.
  intros cls H n text Tt Hn. destruct (line_slice table comb text n Tt Hn) as (s1 & outs & s' & I & L & O & _).
  exists s1, outs, s'. split; [exact I|]. split; [exact L|]. apply H. rewrite O. rewrite segmentation_bounds.
  - assert (E1 : firstn (S (length l)) text = l ++ [a]).
    { unfold text. replace (l ++ a :: b :: r) with ((l ++ [a]) ++ b :: r) by (rewrite <- app_assoc; reflexivity).
      replace (S (length l)) with (length (l ++ [a])) by (rewrite app_length; cbn; lia). rewrite firstn_app, Nat.sub_diag, firstn_all. apply app_nil_r. }
    assert (E2 : skipn (S (length l)) text = b :: r).
    { unfold text. replace (l ++ a :: b :: r) with ((l ++ [a]) ++ b :: r) by (rewrite <- app_assoc; reflexivity).
      replace (S (length l)) with (length (l ++ [a])) by (rewrite app_length; cbn; lia). rewrite skipn_app, Nat.sub_diag, skipn_all. reflexivity. }
    rewrite E1, E2, rev_app_distr. cbn [rev app]. reflexivity.
  - unfold text. rewrite app_length. cbn. lia.
Qed.
Theorem C25_break_after_hard_break :
  forall table comb l a b r, let cls := lcls table comb in
    In (cls a) [BK; LF; NL] \/ cls a = CR /\ cls b <> LF -> at_break table comb l a b r (fun Q => Q).
Proof.
  intros table comb l a b r cls H. apply at_position. intros Q E. apply E. apply break_hard. destruct H as [H|H]; [left|right; exact H].
  now apply in_dec.
Qed.
Print Assumptions C25_break_after_hard_break.
Theorem C25_no_break_in_crlf :
  forall table comb l a b r, let cls := lcls table comb in cls a = CR -> cls b = LF -> at_break table comb l a b r not.
Proof.
  intros table comb l a b r cls Ha Hb. apply at_position. intros Q E HQ. apply E in HQ. fold cls in HQ. rewrite Ha, Hb, no_break_crlf in HQ. discriminate.
Qed.
Print Assumptions C25_no_break_in_crlf.
(* before a hard break there is none, unless behind another hard break *)
Theorem C25_no_break_before_hard_break :
  forall table comb l a b r, let cls := lcls table comb in In (cls b) hard -> ~ In (cls a) hard -> at_break table comb l a b r not.
Proof.
  intros table comb l a b r cls Hb Ha. apply at_position. intros Q E HQ. apply E in HQ. fold cls in HQ. rewrite no_break_before in HQ; [discriminate| | |].
  - apply lcls_in.
  - apply not_true_is_false. intros X. apply Ha. now apply in_dec.
  - apply in_dec. apply in_or_app. auto.
Qed.
Print Assumptions C25_no_break_before_hard_break.
Example C25_ex : lines [65; 13; 10; 66; 11; 11; 67; 32; 10; 13; 68] = Ok [[65; 13; 10]; [66; 11]; [11]; [67; 32; 10]; [13]; [68]].
Proof. vm_compute. reflexivity. Qed.

(* ---- C26 ---- *)
Theorem C26_no_break_before_space :
  forall table comb l a b r, let cls := lcls table comb in In (cls b) [SP; ZW] -> ~ In (cls a) hard -> at_break table comb l a b r not.
Proof.
  intros table comb l a b r cls Hb Ha. apply at_position. intros Q E HQ. apply E in HQ. fold cls in HQ. rewrite no_break_before in HQ; [discriminate| | |].
  - apply lcls_in.
  - apply not_true_is_false. intros X. apply Ha. now apply in_dec.
  - apply in_dec. apply in_or_app. auto.
Qed.
Print Assumptions C26_no_break_before_space.
(* a may itself be a combining mark: there is no break inside a whole run of marks *)
Theorem C26_no_break_before_mark :
  forall table comb l a b r, let cls := lcls table comb in In (cls b) [CM; ZWJ] -> ~ In (cls a) (hard ++ [SP; ZW; eot]) -> at_break table comb l a b r not.
Proof.
  intros table comb l a b r cls Hb Ha. apply at_position. intros Q E HQ. apply E in HQ. fold cls in HQ. rewrite no_break_mark in HQ; [discriminate| | |].
  - apply lcls_in.
  - apply not_true_is_false. intros X. apply Ha. now apply in_dec.
  - now apply in_dec.
Qed.
Print Assumptions C26_no_break_before_mark.
Example C26_ex : lines [65; 32; 32; 65; 776; 776; 8205; 776; 32; 45; 776; 65; 8203; 32; 32; 65] = Ok [[65; 32; 32]; [65; 776; 776; 8205; 776; 32]; [45; 776]; [65; 8203; 32; 32]; [65]].
Proof. vm_compute. reflexivity. Qed.
(* The exception is needed: a hard break wins over LB7. *)
Theorem C26_space_after_hard_break_refuted :
  exists text, map tcls text = [BK; SP] /\ lines text = Ok [[11]; [32]].
Proof. exists [11; 32]. split; [reflexivity|vm_compute; reflexivity]. Qed.
Print Assumptions C26_space_after_hard_break_refuted.
