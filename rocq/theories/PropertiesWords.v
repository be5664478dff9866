(* PropertiesWords.v -- C24 and C20: word breaking.
   [table c r] says whether rune r is in the range table of class c, [pict r] whether it is an
   Extended_Pictographic; both are arbitrary. *)
From Coq Require Import List ZArith Lia Bool.
From Verif Require Import Base RuneWrite Segmenter SegInv Words WordSpec BreakSpec BreakSpecProofs WordVerdict WordCor.
Import ListNotations.
Open Scope Z_scope.

(* a small class table *)
Definition tab (c r : Z) : bool :=
  if r =? 13 then c =? CR else if r =? 10 then c =? LF else if r =? 34 then c =? Double_Quote else if r =? 39 then c =? Single_Quote
  else if r =? 32 then c =? WSegSpace else if r =? 44 then c =? MidNum else if r =? 776 then c =? Extend else if r =? 8205 then c =? ZWJ
  else if (48 <=? r) && (r <=? 57) then c =? Numeric else if (1488 <=? r) && (r <=? 1514) then c =? Hebrew_Letter
  else if (127462 <=? r) && (r <=? 127487) then c =? RI
  else if ((97 <=? r) && (r <=? 122)) || (r =? 8505) then c =? ALetter else false.
Definition pic (r : Z) : bool := (r =? 128104) || (r =? 8505).

(* ---- C24 ---- *)
(* For every text whatsoever the delivered segments are those of the WB rules, where WB7b demands
   that the Hebrew letter follows the double quote immediately. *)
Theorem C24_rules_but_WB7b :
  forall table pict text n, zlen text < MaxInt -> (length text + 1 < n)%nat ->
    exists s1 outs s', InitFromSlice deque_ops text (NewSegmenter [Some NewWordBreaker]) = Ok s1 /\
      loop deque_ops (wb_step table pict) n s1 = Ok (outs, true, s') /\
      map fst outs = segmentation (wb_break true (CodePointClassFor table pict)) text /\ Err s' = None.
Proof. exact word_slice. Qed.
Print Assumptions C24_rules_but_WB7b.
(* Without an ignored character behind a double quote these are all rules. *)
Theorem C24_word_boundaries_partial :
  forall table pict text n, zlen text < MaxInt -> (length text + 1 < n)%nat ->
    plain_quotes (CodePointClassFor table pict) text = true ->
    exists s1 outs s', InitFromSlice deque_ops text (NewSegmenter [Some NewWordBreaker]) = Ok s1 /\
      loop deque_ops (wb_step table pict) n s1 = Ok (outs, true, s') /\
      map fst outs = segmentation (wb_break false (CodePointClassFor table pict)) text /\ Err s' = None.
Proof.
  intros table pict text n Tt Hn Hp. rewrite <- (wb7b_plain _ text Hp). exact (word_slice table pict text n Tt Hn).
Qed.
Print Assumptions C24_word_boundaries_partial.
(* From a reader: the same, each segment cut to the 4096 runes of the buffer (see C11). *)
Theorem C24_word_boundaries_reader_partial :
  forall table pict its n, Forall (fun it => 1 <= snd it) its -> sizes its < MaxInt -> (length its + 1 < n)%nat ->
    plain_quotes (CodePointClassFor table pict) (map fst its) = true ->
    exists s1 outs s', Init deque_ops (mkrd its EOF) (NewSegmenter [Some NewWordBreaker]) = Ok s1 /\
      loop deque_ops (wb_step table pict) n s1 = Ok (outs, true, s') /\
      map fst outs = map (firstn (Z.to_nat 4096)) (segmentation (wb_break false (CodePointClassFor table pict)) (map fst its)) /\ Err s' = None.
Proof.
  intros table pict its n Sz Tt Hn Hp. rewrite <- (wb7b_plain _ _ Hp). exact (word_reader table pict its n Sz Tt Hn).
Qed.
Print Assumptions C24_word_boundaries_reader_partial.
(* "can U+0308 ' U+0308 t 3,4 CR LF" *)
Definition sample : list Z := [99; 97; 110; 776; 39; 776; 116; 32; 32; 51; 44; 52; 13; 10].
Example C24_ex : plain_quotes (CodePointClassFor tab pic) sample = true /\
  segmentation (wb_break false (CodePointClassFor tab pic)) sample = [[99; 97; 110; 776; 39; 776; 116]; [32; 32]; [51; 44; 52]; [13; 10]] /\
  (let* s := InitFromSlice deque_ops sample (NewSegmenter [Some NewWordBreaker]) in
   let* (os, _) := loop deque_ops (wb_step tab pic) 20 s in Ok (map fst (fst os))) = Ok [[99; 97; 110; 776; 39; 776; 116]; [32; 32]; [51; 44; 52]; [13; 10]].
Proof. split; [reflexivity|split; vm_compute; reflexivity]. Qed.
(* WB7b fails when an ignored character follows the double quote: alef, double quote, U+0308, alef. *)
Theorem C24_WB7b_refuted :
  exists table pict text s1 s', map (CodePointClassFor table pict) text = [Hebrew_Letter; Double_Quote; Extend; Hebrew_Letter] /\
    segmentation (wb_break false (CodePointClassFor table pict)) text = [text] /\
    InitFromSlice deque_ops text (NewSegmenter [Some NewWordBreaker]) = Ok s1 /\
    loop deque_ops (wb_step table pict) 9 s1 = Ok ([([1488], (10, 0)); ([34; 776; 1488], (10, 0))], true, s').
Proof.
  exists tab, pic, [1488; 34; 776; 1488]. eexists _, _. split; [reflexivity|]. split; [vm_compute; reflexivity|].
  split; [vm_compute; reflexivity|vm_compute; reflexivity].
Qed.
Print Assumptions C24_WB7b_refuted.
(* WB3c (ZWJ x Extended_Pictographic) fails for a pictographic that is also a letter, such as
   U+2139 INFORMATION SOURCE (uax29classes.go:1120, emoji/emojiclasses.go:389). *)
Theorem C24_WB3c_letter_refuted :
  exists table pict text s1 s', text = [42; 8205; 8505] /\ table ZWJ 8205 = true /\ table ALetter 8505 = true /\ pict 8505 = true /\
    InitFromSlice deque_ops text (NewSegmenter [Some NewWordBreaker]) = Ok s1 /\
    loop deque_ops (wb_step table pict) 9 s1 = Ok ([([42; 8205], (10, 0)); ([8505], (10, 0))], true, s').
Proof.
  exists tab, pic, [42; 8205; 8505]. eexists _, _. do 4 (split; [reflexivity|]). split; [vm_compute; reflexivity|vm_compute; reflexivity].
Qed.
Print Assumptions C24_WB3c_letter_refuted.

(* ---- C20, words ---- *)
Theorem C20_word_flags_pair_up :
  forall table pict l ris r k n, let cls := CodePointClassFor table pict in let text := l ++ ris ++ r in
    Forall (fun x => cls x = RI) ris -> one (Z.eqb RI) (map cls (rev l)) = false -> (0 < k < length ris)%nat ->
    zlen text < MaxInt -> (length text + 1 < n)%nat ->
    exists s1 outs s', InitFromSlice deque_ops text (NewSegmenter [Some NewWordBreaker]) = Ok s1 /\
      loop deque_ops (wb_step table pict) n s1 = Ok (outs, true, s') /\
      (In (length l + k)%nat (bounds 0 (map fst outs)) <-> Nat.even k = true).
Proof.
  intros table pict l ris r k n cls text Hr Hl Hk Tt Hn.
  destruct (word_slice table pict text n Tt Hn) as (s1 & outs & s' & I & L & O & _).
  exists s1, outs, s'. split; [exact I|]. split; [exact L|]. rewrite O. exact (ri_pairs cls true l ris r k Hr Hl Hk).
Qed.
Print Assumptions C20_word_flags_pair_up.
Example C20_word_ex : Forall (fun x => CodePointClassFor tab pic x = RI) [127462; 127463; 127464] /\
  one (Z.eqb RI) (map (CodePointClassFor tab pic) (rev [97])) = false /\
  segmentation (wb_break true (CodePointClassFor tab pic)) [97; 127462; 127463; 127464; 98] = [[97]; [127462; 127463]; [127464]; [98]].
Proof. split; [repeat constructor|split; vm_compute; reflexivity]. Qed.
