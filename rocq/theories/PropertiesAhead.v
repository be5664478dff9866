(* PropertiesAhead.v -- C72: how far Next() has read when it delivers a segment.
   The segmenter reads from a reader with the runes [its]; n calls of Next() have delivered the first n
   pieces, c runes together, and k runes have been read (the end of the text counts as one more).
   What is read but not delivered is in the queue. *)
From Coq Require Import List ZArith Lia Bool.
From Verif Require Import Base RuneWrite Segmenter SegSim SegInv BreakSpec Ahead AheadBreakers AheadWords AheadLines.
From Verif Require Grapheme GraphemeSpec GraphemeProofs Words WordSpec WordVerdict Line LineSpec LineCor LineAgree SimpleWord SimpleWordProofs SegCor.
From Verif Require PropertiesGrapheme PropertiesWords PropertiesLine.
Import ListNotations.
Open Scope Z_scope.

Definition delivered {B} (step : B -> Z -> B * Z * list Z) (b : B) (its : list (Z * Z)) (pieces : list (list Z)) (n : nat) (P : nat -> nat -> Prop) : Prop :=
  exists s1 outs s' k d, Init deque_ops (mkrd its EOF) (NewSegmenter [b]) = Ok s1 /\ loop deque_ops step n s1 = Ok (outs, false, s') /\
    map fst outs = map (firstn (Z.to_nat 4096)) (firstn n pieces) /\
    rdr s' = Some (mkrd (skipn k its) EOF) /\ dq s' = Some d /\
    let c := length (concat (firstn n pieces)) in q_len deque_ops d = Z.of_nat k - Z.of_nat c /\ (k <= S (length its))%nat /\ P k c.
Definition good (its : list (Z * Z)) : Prop := Forall (fun it => 1 <= snd it) its /\ sizes its < MaxInt.

(* a loop that reaches the end can be left earlier *)
Lemma loop_short {B} (step : B -> Z -> B * Z * list Z) : forall n s outs s' m, loop deque_ops step n s = Ok (outs, true, s') -> (m <= length outs)%nat ->
  exists outs' s'', loop deque_ops step m s = Ok (outs', false, s'').
Proof.
  induction n as [|n IH]; intros s outs s' m L M; [discriminate|]. destruct m as [|m]; [cbn; eauto|]. cbn [loop] in *.
  destruct (exec deque_ops step CNext s) as [[o s1]| |]; [|discriminate|discriminate]. cbn [rbind] in *. destruct o as [x|]; [|injection L as <- <-; cbn in M; lia].
  destruct (loop deque_ops step n s1) as [[[xs f] s2]| |] eqn:E; [|discriminate|discriminate]. cbn [rbind] in L. injection L as <- -> ->.
  destruct (IH s1 xs s' m E ltac:(cbn in M; lia)) as (o' & s'' & E'). rewrite E'. cbn [rbind]. eauto.
Qed.
Lemma start {B} (step : B -> Z -> B * Z * list Z) (b : B) its (pieces : list (list Z)) n :
  (exists s1 outs s', Init deque_ops (mkrd its EOF) (NewSegmenter [b]) = Ok s1 /\ loop deque_ops step (length its + 2) s1 = Ok (outs, true, s') /\
     map fst outs = map (firstn (Z.to_nat 4096)) pieces /\ Err s' = None) -> (n <= length pieces)%nat ->
  exists s1 outs s', Init deque_ops (mkrd its EOF) (NewSegmenter [b]) = Ok s1 /\ loop deque_ops step n s1 = Ok (outs, false, s').
Proof.
  intros (s1 & outs & s' & I & L & O & _) Hn. apply (f_equal (@length _)) in O. rewrite !map_length in O.
  destruct (loop_short step _ _ _ _ n L ltac:(lia)) as (o & s2 & E). eauto 6.
Qed.

(* Grapheme clusters: exactly one rune more than delivered (or the end of the text). *)
Theorem C72_graphemes : forall table pict its n, good its ->
  let pieces := segmentation (GraphemeSpec.gb_break false (Grapheme.CodePointClassFor table pict)) (map fst its) in
  (0 < n <= length pieces)%nat ->
  delivered (Grapheme.gb_step table pict) (Some Grapheme.NewBreaker) its pieces n (fun k c => k = S c).
Proof.
  intros table pict its n [Sz Tt] pieces [Hn Hl].
  destruct (start (Grapheme.gb_step table pict) (Some Grapheme.NewBreaker) its pieces n) as (s1 & outs & s' & I & L); [apply GraphemeProofs.grapheme_reader; auto; lia|exact Hl|].
  destruct (grapheme_ahead table pict its n s1 outs s' Sz Tt I L Hn) as (O & R & C & d & D & Q).
  exists s1, outs, s', (S (length (concat (firstn n pieces)))), d. fold pieces in O, R, C. repeat (split; [assumption|]). split; [rewrite Q; lia|]. split; [lia|reflexivity].
Qed.
Print Assumptions C72_graphemes.

(* Simple words, for texts without U+0000: the same. *)
Theorem C72_simple_words_partial : forall isSpace its n, good its -> isSpace 0 = false -> Forall (fun r => r <> 0) (map fst its) ->
  let pieces := SimpleWordProofs.runs isSpace (map fst its) in (0 < n <= length pieces)%nat ->
  delivered (SimpleWord.swb_step isSpace) SimpleWord.NewSimpleWordBreaker its pieces n (fun k c => k = S c).
Proof.
  intros isSpace its n [Sz Tt] S0 NZ pieces [Hn Hl].
  destruct (start (SimpleWord.swb_step isSpace) SimpleWord.NewSimpleWordBreaker its pieces n) as (s1 & outs & s' & I & L); [|exact Hl|].
  { destruct (SegCor.swb_reader_any isSpace its (length its + 2) S0 NZ Sz Tt ltac:(lia)) as (s1 & s' & I & L & E). eexists s1, _, s'. split; [exact I|]. split; [exact L|].
    split; [|exact E]. rewrite !map_map. reflexivity. }
  destruct (swb_ahead isSpace its S0 NZ n s1 outs s' Sz Tt I L Hn) as (O & R & C & d & D & Q).
  exists s1, outs, s', (S (length (concat (firstn n pieces)))), d. fold pieces in O, R, C. repeat (split; [assumption|]). split; [rewrite Q; lia|]. split; [lia|reflexivity].
Qed.
Print Assumptions C72_simple_words_partial.

(* Words: apart from the first and the last rune read ahead, they are ignored by rule WB4. *)
Theorem C72_words : forall table pict its n, good its -> let cls := Words.CodePointClassFor table pict in
  let pieces := segmentation (WordSpec.wb_break true cls) (map fst its) in (0 < n <= length pieces)%nat ->
  delivered (Words.wb_step table pict) (Some Words.NewWordBreaker) its pieces n
    (fun k c => (c <= k)%nat /\ forall j, (c < j)%nat -> (S j < k)%nat -> In (cls (nth j (map fst its) 0)) [Words.Extend; Words.Format; Words.ZWJ]).
Proof.
  intros table pict its n [Sz Tt] cls pieces [Hn Hl].
  destruct (start (Words.wb_step table pict) (Some Words.NewWordBreaker) its pieces n) as (s1 & outs & s' & I & L); [apply WordVerdict.word_reader; auto; lia|exact Hl|].
  destruct (word_ahead table pict its n s1 outs s' Sz Tt I L Hn) as (O & k & d & R & C & D & Q & J).
  exists s1, outs, s', k, d. fold cls pieces in O, R, C, Q, J. repeat (split; [assumption|]). split; [rewrite Q; lia|]. split; [lia|]. split; [lia|].
  intros j J1 J2. specialize (J j J1 J2). unfold Words.ignored in J. apply orb_prop in J. destruct J as [J|J]; [apply orb_prop in J; destruct J as [J|J]|]; apply Z.eqb_eq in J; rewrite J; cbn; auto.
Qed.
Print Assumptions C72_words.

(* Lines: exactly one rune more than delivered; two if an opening bracket or a hyphen, not followed by
   a digit, comes after a prefix or postfix of numbers (rule LB25 is undecided until then). *)
Theorem C72_lines : forall table comb its n, good its -> let cls := LineCor.lcls table comb in let cs := map cls (map fst its) in
  let pieces := segmentation (LineAgree.line_break LineSpec.code_break cls) (map fst its) in (0 < n <= length pieces)%nat ->
  delivered (Line.lb_step table comb) (Some Line.NewLineWrap) its pieces n
    (fun k c => k = S c \/ (k = S (S c) /\ In (LineSpec.last_class (LineSpec.units (rev (firstn c cs)))) [Line.PR; Line.PO] /\
                            In (nth c cs 0) [Line.OP; Line.HY] /\ nth (S c) cs 0 <> Line.NU)).
Proof.
  intros table comb its n [Sz Tt] cls cs pieces [Hn Hl].
  destruct (start (Line.lb_step table comb) (Some Line.NewLineWrap) its pieces n) as (s1 & outs & s' & I & L); [apply LineAgree.line_reader; auto; lia|exact Hl|].
  destruct (line_ahead table comb its n s1 outs s' Sz Tt I L Hn) as (O & k & d & [B N] & R & D & Q).
  exists s1, outs, s', k, d. fold cls pieces in O, B, N, R, Q. repeat (split; [assumption|]). split; [rewrite Q; lia|]. split; [lia|].
  destruct N as [N|(N & _ & A1 & A2 & A3)]; [left; exact N|right]. split; [exact N|]. rewrite !LineSum.in_dec. auto.
Qed.
Print Assumptions C72_lines.

(* After "a" of "ab": one rune ahead. *)
Example C72_ex : delivered (Grapheme.gb_step PropertiesGrapheme.tab PropertiesGrapheme.pic) (Some Grapheme.NewBreaker) [(97, 1); (769, 2); (98, 1); (99, 1)] [[97; 769]; [98]; [99]] 1 (fun k c => k = 3%nat /\ c = 2%nat).
Proof. eexists. eexists. eexists. exists 3%nat. eexists. split; [vm_compute; reflexivity|]. split; [vm_compute; reflexivity|]. split; [reflexivity|]. split; [reflexivity|]. split; [reflexivity|]. vm_compute. auto. Qed.
(* Words may need a long look-ahead: "a ' U+0308 U+0308 U+0308 SP", five runes ahead of "a". *)
Example C72_words_ex : delivered (Words.wb_step PropertiesWords.tab PropertiesWords.pic) (Some Words.NewWordBreaker)
  [(97, 1); (39, 1); (776, 2); (776, 2); (776, 2); (32, 1); (98, 1)] [[97]; [39; 776; 776; 776]; [32]; [98]] 1 (fun k c => k = 6%nat /\ c = 1%nat).
Proof. eexists. eexists. eexists. exists 6%nat. eexists. split; [vm_compute; reflexivity|]. split; [vm_compute; reflexivity|]. split; [reflexivity|]. split; [reflexivity|]. split; [reflexivity|]. vm_compute. auto. Qed.
(* Lines: two runes ahead in "$(x". *)
Example C72_lines_ex : delivered (Line.lb_step PropertiesLine.ltab PropertiesLine.nocomb) (Some Line.NewLineWrap)
  [(36, 1); (40, 1); (120, 1); (120, 1)] [[36]; [40; 120; 120]] 1 (fun k c => k = 3%nat /\ c = 1%nat).
Proof. eexists. eexists. eexists. exists 3%nat. eexists. split; [vm_compute; reflexivity|]. split; [vm_compute; reflexivity|]. split; [reflexivity|]. split; [reflexivity|]. split; [reflexivity|]. vm_compute. auto. Qed.
(* After a line feed, a word is delivered without any look-ahead. *)
Example C72_words_newline_ex : delivered (Words.wb_step PropertiesWords.tab PropertiesWords.pic) (Some Words.NewWordBreaker)
  [(10, 1); (97, 1)] [[10]; [97]] 1 (fun k c => k = 1%nat /\ c = 1%nat).
Proof. eexists. eexists. eexists. exists 1%nat. eexists. split; [vm_compute; reflexivity|]. split; [vm_compute; reflexivity|]. split; [reflexivity|]. split; [reflexivity|]. split; [reflexivity|]. vm_compute. auto. Qed.
