(* PropertiesSegText.v -- C71: the bytes of the segments are the bytes of the text.
   The text is read by a reader of the standard library (SegText.ReadRunes); the loop calls Next() and
   then Bytes() ([shown]).  An undecodable byte is read as U+FFFD, so it comes out as EF BF BD
   ([repaired]); a segment is cut to the 4096 runes of the buffer (see C11). *)
From Coq Require Import List ZArith Lia Bool.
From Verif Require Import Base Utf8 Utf8Proofs RuneWrite Segmenter SegInv BreakSpec BreakSpecProofs GStringProofs SegText SegTextProofs.
From Verif Require Grapheme GraphemeSpec GraphemeProofs Words WordSpec WordVerdict Line LineSpec LineCor LineAgree SimpleWord SimpleWordProofs SegCor.
From Verif Require PropertiesGrapheme.
Import ListNotations.
Open Scope Z_scope.

(* ---- the pieces of the four breakers ---- *)
Definition clusters table pict (l : list Z) := segmentation (GraphemeSpec.gb_break false (Grapheme.CodePointClassFor table pict)) l.
Definition words table pict (l : list Z) := segmentation (WordSpec.wb_break true (Words.CodePointClassFor table pict)) l.
Definition lines table comb (l : list Z) := segmentation (LineAgree.line_break LineSpec.code_break (LineCor.lcls table comb)) l.
Definition short (segs : list (list Z)) : Prop := Forall (fun w => zlen w <= 4096) segs.

(* Bytes() and Text() are the same bytes, in every state. *)
Theorem C71_bytes_is_text : forall (Q B : Type) (s : state Q B), Bytes s = TextString s.
Proof. intros. apply bytes_text. Qed.
Print Assumptions C71_bytes_is_text.

(* For every text whatsoever: the loop delivers the bytes of the pieces, each cut to 4096 runes; the
   bytes of the whole pieces, put together, are the text with its undecodable bytes replaced. *)
Theorem C71_graphemes : forall table pict s n, Forall byte s -> zlen s < MaxInt -> (length s + 1 < n)%nat ->
  let segs := clusters table pict (map fst (ReadRunes s)) in
  shown (Grapheme.gb_step table pict) (Some Grapheme.NewBreaker) n s (map (fun w => encode (firstn (Z.to_nat 4096) w)) segs) /\
  repaired s (concat (map encode segs)) /\
  (short segs -> shown (Grapheme.gb_step table pict) (Some Grapheme.NewBreaker) n s (map encode segs)).
Proof.
  intros table pict s n BY TT L segs. apply shown_bytes; [exact BY|apply segmentation_concat|].
  destruct (read_sizes (length s) s (le_n _)) as [S1 S2]. apply GraphemeProofs.grapheme_reader; [exact S1| |fold (ReadRunes s) in S2; unfold ReadRunes in *; lia].
  unfold ReadRunes. rewrite read_total; [exact TT|exact BY|apply le_n].
Qed.
Print Assumptions C71_graphemes.
Theorem C71_words : forall table pict s n, Forall byte s -> zlen s < MaxInt -> (length s + 1 < n)%nat ->
  let segs := words table pict (map fst (ReadRunes s)) in
  shown (Words.wb_step table pict) (Some Words.NewWordBreaker) n s (map (fun w => encode (firstn (Z.to_nat 4096) w)) segs) /\
  repaired s (concat (map encode segs)) /\
  (short segs -> shown (Words.wb_step table pict) (Some Words.NewWordBreaker) n s (map encode segs)).
Proof.
  intros table pict s n BY TT L segs. apply shown_bytes; [exact BY|apply segmentation_concat|].
  destruct (read_sizes (length s) s (le_n _)) as [S1 S2]. apply WordVerdict.word_reader; [exact S1| |unfold ReadRunes in *; lia].
  unfold ReadRunes. rewrite read_total; [exact TT|exact BY|apply le_n].
Qed.
Print Assumptions C71_words.
Theorem C71_lines : forall table comb s n, Forall byte s -> zlen s < MaxInt -> (length s + 1 < n)%nat ->
  let segs := lines table comb (map fst (ReadRunes s)) in
  shown (Line.lb_step table comb) (Some Line.NewLineWrap) n s (map (fun w => encode (firstn (Z.to_nat 4096) w)) segs) /\
  repaired s (concat (map encode segs)) /\
  (short segs -> shown (Line.lb_step table comb) (Some Line.NewLineWrap) n s (map encode segs)).
Proof.
  intros table comb s n BY TT L segs. apply shown_bytes; [exact BY|apply segmentation_concat|].
  destruct (read_sizes (length s) s (le_n _)) as [S1 S2]. apply LineAgree.line_reader; [exact S1| |unfold ReadRunes in *; lia].
  unfold ReadRunes. rewrite read_total; [exact TT|exact BY|apply le_n].
Qed.
Print Assumptions C71_lines.
(* The simple word breaker, for texts without U+0000. *)
Theorem C71_simple_words_partial : forall isSpace s n, Forall byte s -> zlen s < MaxInt -> (length s + 1 < n)%nat ->
  isSpace 0 = false -> Forall (fun r => r <> 0) (map fst (ReadRunes s)) ->
  let segs := SimpleWordProofs.runs isSpace (map fst (ReadRunes s)) in
  repaired s (concat (map encode segs)) /\
  (short segs -> shown (SimpleWord.swb_step isSpace) SimpleWord.NewSimpleWordBreaker n s (map encode segs)).
Proof.
  intros isSpace s n BY TT L SP NZ segs. destruct (read_sizes (length s) s (le_n _)) as [S1 S2].
  assert (RP : repaired s (concat (map encode segs))).
  { rewrite <- encode_concat. unfold segs. rewrite SimpleWordProofs.runs_concat. apply read_repaired; [exact BY|apply le_n]. }
  split; [exact RP|]. intros SH.
  destruct (SegCor.swb_reader isSpace (ReadRunes s) n SP NZ S1) as (s1 & s' & E1 & E2 & E3); [|unfold ReadRunes in *; lia|exact SH|].
  - unfold ReadRunes. rewrite read_total; [exact TT|exact BY|apply le_n].
  - exists s1, s'. split; [exact E1|]. split; [|exact E3]. rewrite (byte_loop_loop _ _ _ _ _ _ _ E2), map_map. reflexivity.
Qed.
Print Assumptions C71_simple_words_partial.

(* Valid UTF-8: the runes read are the characters, and the bytes of the pieces are the text, byte by byte. *)
Theorem C71_valid : forall rs, Forall (fun r => scalar r = true) rs ->
  map fst (ReadRunes (encode rs)) = rs /\ (forall t, repaired (encode rs) t <-> t = encode rs) /\
  (forall table pict, concat (map encode (clusters table pict rs)) = encode rs) /\
  (forall table pict, concat (map encode (words table pict rs)) = encode rs) /\
  (forall table comb, concat (map encode (lines table comb rs)) = encode rs) /\
  (forall isSpace, concat (map encode (SimpleWordProofs.runs isSpace rs)) = encode rs).
Proof.
  intros rs SC. split; [apply read_encode; [exact SC|apply le_n]|]. split.
  - intros t. split; [apply repaired_valid, SC|intros ->]. clear -SC. induction SC as [|r l S1 _ IH]; [constructor|].
    change (encode (r :: l)) with (EncodeRune r ++ encode l). now apply rp_char.
  - repeat split; intros; unfold clusters, words, lines; rewrite <- encode_concat, ?segmentation_concat, ?SimpleWordProofs.runs_concat; reflexivity.
Qed.
Print Assumptions C71_valid.
(* [repaired] determines the result, and replaces nothing in a text exactly if the text is valid. *)
Theorem C71_repaired_fun : forall s t u, repaired s t -> repaired s u -> t = u.
Proof. exact repaired_fun. Qed.
Print Assumptions C71_repaired_fun.
Theorem C71_repaired_same : forall s, repaired s s <-> exists rs, Forall (fun r => scalar r = true) rs /\ s = encode rs.
Proof. exact repaired_same. Qed.
Print Assumptions C71_repaired_same.

(* A German word with umlauts, a euro sign, an emoji and U+0301 behind an e. *)
Definition sample : list Z := [77; 228; 116; 33; 32; 8364; 32; 128104; 101; 769].
Example C71_ex :
  shown (Grapheme.gb_step PropertiesGrapheme.tab PropertiesGrapheme.pic) (Some Grapheme.NewBreaker) 20 (encode sample)
    [[77]; [195; 164]; [116]; [33]; [32]; [226; 130; 172]; [32]; [240; 159; 145; 168]; [101; 204; 129]] /\
  short (clusters PropertiesGrapheme.tab PropertiesGrapheme.pic sample).
Proof.
  split; [|vm_compute; repeat constructor; discriminate].
  eexists. eexists. split; [vm_compute; reflexivity|]. split; vm_compute; reflexivity.
Qed.
(* The bytes are not kept if they are not UTF-8: "a", FF, and the first two bytes of a euro sign. *)
Example C71_invalid_refuted :
  shown (SimpleWord.swb_step (fun r => r =? 32)) SimpleWord.NewSimpleWordBreaker 20 [97; 255; 32; 226; 130]
    [[97; 239; 191; 189]; [32]; [239; 191; 189; 239; 191; 189]].
Proof. eexists. eexists. split; [vm_compute; reflexivity|]. split; vm_compute; reflexivity. Qed.
