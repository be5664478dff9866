(* PropertiesResume.v -- C66: segmentation can be resumed at every boundary.
   [table], [pict], [comb], [isSpace] are arbitrary. *)
From Coq Require Import List ZArith Lia Bool.
From Verif Require Import Base RuneWrite Segmenter SegInv BreakSpec BreakSpecProofs SimpleWord SimpleWordProofs Resume.
From Verif Require Grapheme GraphemeSpec GraphemeProofs ResumeGrapheme PropertiesGrapheme Words WordSpec WordVerdict WordCor ResumeWords PropertiesWords
  Line LineSpec LineCor LineAgree ResumeLine PropertiesLine PropertiesSegmenter.
Import ListNotations.
Open Scope Z_scope.

(* A new segmenter with a new breaker delivers exactly these segments for the text, without error. *)
Definition delivers {B} (step : option B -> Z -> option B * Z * list Z) (b : B) (n : nat) (text : list Z) (segs : list (list Z)) : Prop :=
  exists s1 outs s', InitFromSlice deque_ops text (NewSegmenter [Some b]) = Ok s1 /\ loop deque_ops step n s1 = Ok (outs, true, s') /\
    map fst outs = segs /\ Err s' = None.
Lemma delivers_fun {B} step (b : B) n text x y : delivers step b n text x -> delivers step b n text y -> x = y.
Proof. intros (s1 & o1 & s2 & A & E & C & _) (s3 & o2 & s4 & A' & E' & C' & _). rewrite A in A'. injection A' as <-. rewrite E in E'. injection E' as <- _. congruence. Qed.
Lemma part_sizes (a b : list (list Z)) : zlen (List.concat a) <= zlen (List.concat (a ++ b)) /\ zlen (List.concat b) <= zlen (List.concat (a ++ b)).
Proof. rewrite concat_app. unfold zlen. rewrite app_length. lia. Qed.
Lemma part_lengths (a b : list (list Z)) : (length (List.concat a) <= length (List.concat (a ++ b)) /\ length (List.concat b) <= length (List.concat (a ++ b)))%nat.
Proof. rewrite concat_app, app_length. lia. Qed.
(* the argument for any breaker whose segments are those of a predicate *)
Lemma delivers_parts {B} step (b0 : B) brk (good : list Z -> Prop) :
  (forall text n, zlen text < MaxInt -> (length text + 1 < n)%nat -> good text -> delivers step b0 n text (segmentation brk text)) ->
  (forall a b, good (List.concat (a ++ b)) -> good (List.concat a) /\ good (List.concat b)) ->
  (forall text a b, segmentation brk text = a ++ b -> segmentation brk (List.concat a) = a /\ segmentation brk (List.concat b) = b) ->
  forall text n a b, zlen text < MaxInt -> (length text + 1 < n)%nat -> good text -> delivers step b0 n text (a ++ b) ->
    text = List.concat a ++ List.concat b /\ delivers step b0 n (List.concat a) a /\ delivers step b0 n (List.concat b) b.
Proof.
  intros D G R text n a b Tt Hn Gt H. pose proof (delivers_fun _ _ _ _ _ _ (D text n Tt Hn Gt) H) as E.
  destruct (R text a b E) as [Ea Eb]. assert (T : text = List.concat (a ++ b)) by (rewrite <- E; symmetry; apply segmentation_concat).
  rewrite T in Gt, Tt, Hn. destruct (part_sizes a b), (part_lengths a b), (G a b Gt). split; [now rewrite T, concat_app|].
  split; [rewrite <- Ea at 2|rewrite <- Eb at 2]; apply D; auto; lia.
Qed.

(* Whatever number of segments has been delivered, the text up to there alone gives exactly these, and a new
   segmenter for the rest gives the others.  Graphemes: *)
Theorem C66_graphemes :
  forall table pict text n a b, zlen text < MaxInt -> (length text + 1 < n)%nat ->
    delivers (Grapheme.gb_step table pict) Grapheme.NewBreaker n text (a ++ b) ->
    text = List.concat a ++ List.concat b /\
    delivers (Grapheme.gb_step table pict) Grapheme.NewBreaker n (List.concat a) a /\
    delivers (Grapheme.gb_step table pict) Grapheme.NewBreaker n (List.concat b) b.
Proof.
  intros table pict text n a b Tt Hn. apply (delivers_parts _ _ (GraphemeSpec.gb_break false (Grapheme.CodePointClassFor table pict)) (fun _ => True)); auto.
  - intros t m Ht Hm _. exact (PropertiesGrapheme.C18_rules_but_GB9b table pict t m Ht Hm).
  - apply ResumeGrapheme.grapheme_resume.
Qed.
Print Assumptions C66_graphemes.
(* lines: *)
Theorem C66_lines :
  forall table comb text n a b, zlen text < MaxInt -> (length text + 1 < n)%nat ->
    delivers (Line.lb_step table comb) Line.NewLineWrap n text (a ++ b) ->
    text = List.concat a ++ List.concat b /\
    delivers (Line.lb_step table comb) Line.NewLineWrap n (List.concat a) a /\
    delivers (Line.lb_step table comb) Line.NewLineWrap n (List.concat b) b.
Proof.
  intros table comb text n a b Tt Hn. apply (delivers_parts _ _ (LineAgree.line_break LineSpec.code_break (LineCor.lcls table comb)) (fun _ => True)); auto.
  - intros t m Ht Hm _. exact (PropertiesLine.C39_line_breaks_of_code table comb t m Ht Hm).
  - apply ResumeLine.line_resume.
Qed.
Print Assumptions C66_lines.
(* words, for texts without an ignored character behind a double quote: *)
Theorem C66_words_partial :
  forall table pict text n a b, zlen text < MaxInt -> (length text + 1 < n)%nat ->
    WordCor.plain_quotes (Words.CodePointClassFor table pict) text = true ->
    delivers (Words.wb_step table pict) Words.NewWordBreaker n text (a ++ b) ->
    text = List.concat a ++ List.concat b /\
    delivers (Words.wb_step table pict) Words.NewWordBreaker n (List.concat a) a /\
    delivers (Words.wb_step table pict) Words.NewWordBreaker n (List.concat b) b.
Proof.
  intros table pict text n a b Tt Hn Q.
  apply (delivers_parts _ _ (WordSpec.wb_break false (Words.CodePointClassFor table pict)) (fun t => WordCor.plain_quotes (Words.CodePointClassFor table pict) t = true)); auto.
  - intros t m Ht Hm Qt. exact (PropertiesWords.C24_word_boundaries_partial table pict t m Ht Hm Qt).
  - intros x y G. rewrite concat_app in G. split; [exact (ResumeWords.plain_prefix _ _ _ G)|exact (WordCor.plain_app _ _ _ G)].
  - apply ResumeWords.word_resume.
Qed.
Print Assumptions C66_words_partial.
(* Otherwise not: alef, double quote, diaeresis, alef has two words, but the second of them alone has two. *)
Theorem C66_words_refuted :
  exists table pict a b, delivers (Words.wb_step table pict) Words.NewWordBreaker 9 (List.concat (a ++ b)) (a ++ b) /\
    ~ delivers (Words.wb_step table pict) Words.NewWordBreaker 9 (List.concat b) b.
Proof.
  exists PropertiesWords.tab, PropertiesWords.pic, [[1488]], [[34; 776; 1488]].
  assert (D : delivers (Words.wb_step PropertiesWords.tab PropertiesWords.pic) Words.NewWordBreaker 9 [34; 776; 1488] [[34; 776]; [1488]]).
  { eexists _, _, _. split; [vm_compute; reflexivity|]. split; [vm_compute; reflexivity|]. split; vm_compute; reflexivity. }
  split.
  - eexists _, _, _. split; [vm_compute; reflexivity|]. split; [vm_compute; reflexivity|]. split; vm_compute; reflexivity.
  - intros H. pose proof (delivers_fun _ _ _ _ _ _ D H). discriminate.
Qed.
Print Assumptions C66_words_refuted.
(* Simple words, with the penalties. *)
Lemma runs_unique isSpace : forall ws, Forall (fun w => w <> [] /\ Forall (fun r => isSpace r = isSpace (hd 0 w)) w) ws -> alternating isSpace ws ->
  runs isSpace (List.concat ws) = ws.
Proof.
  induction ws as [|w ws IH]; intros U A; [reflexivity|]. inversion U as [|? ? [N Uw] U']; subst.
  assert (A' : alternating isSpace ws) by (destruct ws; [exact Logic.I|exact (proj2 A)]). specialize (IH U' A'). cbn [List.concat].
  assert (G : forall b, Forall (fun r => isSpace r = b) w -> (forall v vs, ws = v :: vs -> b <> isSpace (hd 0 v)) -> runs isSpace (w ++ List.concat ws) = w :: ws).
  { clear U Uw A. revert N. induction w as [|r w IHw]; intros N b F D; [congruence|]. pose proof (Forall_inv F) as Hr. pose proof (Forall_inv_tail F) as Ft. cbn beta in Hr. subst b. destruct w as [|r' w].
    - cbn [app runs]. rewrite IH. destruct ws as [|v vs]; [reflexivity|]. specialize (D v vs eq_refl). destruct v as [|c v]; [reflexivity|]. cbn [hd] in D.
      destruct (Bool.eqb_spec (isSpace r) (isSpace c)); [contradiction|reflexivity].
    - specialize (IHw ltac:(discriminate) _ Ft D). pose proof (Forall_inv Ft) as Hr'. cbn beta in Hr'. cbn [app] in *. rewrite (runs_cons isSpace r r' _ w ws IHw), Hr', Bool.eqb_reflx. reflexivity. }
  apply (G (isSpace (hd 0 w)) Uw). intros v vs ->. exact (proj1 A).
Qed.
Lemma alternating_parts isSpace : forall a b, alternating isSpace (a ++ b) -> alternating isSpace a /\ alternating isSpace b.
Proof.
  induction a as [|w a IH]; intros b A; [split; [exact Logic.I|exact A]|]. destruct a as [|v a].
  - split; [exact Logic.I|]. destruct b; [exact Logic.I|exact (proj2 A)].
  - destruct A as [A1 A2]. destruct (IH b A2) as [B1 B2]. split; [split; auto|auto].
Qed.
Theorem C66_simple_words :
  forall isSpace text n outs1 outs2 s1 s', isSpace 0 = false -> Forall (fun r => r <> 0) text -> zlen text < MaxInt -> (length text + 1 < n)%nat ->
    InitFromSlice deque_ops text (NewSegmenter [NewSimpleWordBreaker]) = Ok s1 -> loop deque_ops (swb_step isSpace) n s1 = Ok (outs1 ++ outs2, true, s') ->
    forall part outs, In (part, outs) [(List.concat (map fst outs1), outs1); (List.concat (map fst outs2), outs2)] ->
    exists s2 s3, InitFromSlice deque_ops part (NewSegmenter [NewSimpleWordBreaker]) = Ok s2 /\ loop deque_ops (swb_step isSpace) n s2 = Ok (outs, true, s3) /\ Err s3 = None.
Proof.
  intros isSpace text n outs1 outs2 s1 s' S0 NZ Tt Hn I L.
  destruct (PropertiesSegmenter.C12_maximal_runs_slice isSpace text n S0 NZ Tt Hn) as (t1 & t' & I' & L' & _). rewrite I in I'. injection I' as <-. rewrite L in L'. injection L' as E _.
  assert (M : forall o, map (run_out isSpace) (map fst (map (run_out isSpace) o)) = map (run_out isSpace) o) by (intros o; rewrite !map_map; reflexivity).
  assert (F : forall o, map fst (map (run_out isSpace) o) = o) by (intros o; rewrite map_map; cbn; apply map_id).
  pose proof (f_equal (map fst) E) as R. rewrite map_app, F in R.
  pose proof (runs_uniform isSpace text) as U. pose proof (runs_alternate isSpace text) as A. pose proof (runs_concat isSpace text) as Ct. rewrite <- R in U, A, Ct.
  apply Forall_app in U. destruct U as [U1 U2]. apply alternating_parts in A. destruct A as [A1 A2]. rewrite concat_app in Ct.
  apply map_eq_app in E || (symmetry in E; apply map_eq_app in E). destruct E as (r1 & r2 & E & E1 & E2). subst outs1 outs2. rewrite !F in *.
  rewrite <- Ct in NZ, Tt, Hn. apply Forall_app in NZ. destruct NZ as [NZ1 NZ2]. unfold zlen in Tt. rewrite app_length in Tt, Hn.
  intros part outs [P|[P|[]]]; injection P as <- <-.
  - pose proof (PropertiesSegmenter.C12_maximal_runs_slice isSpace (List.concat r1) n S0 NZ1 ltac:(unfold zlen; lia) ltac:(lia)) as X. rewrite (runs_unique isSpace r1 U1 A1) in X. exact X.
  - pose proof (PropertiesSegmenter.C12_maximal_runs_slice isSpace (List.concat r2) n S0 NZ2 ltac:(unfold zlen; lia) ltac:(lia)) as X. rewrite (runs_unique isSpace r2 U2 A2) in X. exact X.
Qed.
Print Assumptions C66_simple_words.
Example C66_ex :
  delivers (Grapheme.gb_step PropertiesGrapheme.tab PropertiesGrapheme.pic) Grapheme.NewBreaker 20 [127462; 127463; 127464; 127465; 65; 769; 13; 10] ([[127462; 127463]] ++ [[127464; 127465]; [65; 769]; [13; 10]]) /\
  delivers (Line.lb_step PropertiesLine.ltab PropertiesLine.nocomb) Line.NewLineWrap 20 [65; 32; 40; 36; 45; 49; 41; 32; 66; 776; 11; 66] ([[65; 32]; [40; 36; 45; 49; 41; 32]] ++ [[66; 776; 11]; [66]]) /\
  delivers (Words.wb_step PropertiesWords.tab PropertiesWords.pic) Words.NewWordBreaker 20 [97; 39; 98; 32; 1488; 34; 1489; 44; 49; 44; 50] ([[97; 39; 98]; [32]] ++ [[1488; 34; 1489]; [44]; [49; 44; 50]]) /\
  WordCor.plain_quotes (Words.CodePointClassFor PropertiesWords.tab PropertiesWords.pic) [97; 39; 98; 32; 1488; 34; 1489; 44; 49; 44; 50] = true.
Proof.
  split; [|split; [|split]]; [| | |reflexivity]; (eexists _, _, _; split; [vm_compute; reflexivity|]; split; [vm_compute; reflexivity|]; split; vm_compute; reflexivity).
Qed.
Example C66_simple_words_ex : runs PropertiesSegmenter.sp [97; 98; 32; 32; 99] = [[97; 98]; [32; 32]] ++ [[99]] /\ PropertiesSegmenter.sp 0 = false.
Proof. split; vm_compute; reflexivity. Qed.
