(* PropertiesClasses.v -- C49 to C52: the classes of the code points in the tables of the repository,
   and what the breakers do with them. *)
From Coq Require Import List ZArith Lia Bool.
From Verif Require Import Base RuneWrite Segmenter ClassTables Width WidthSpec Utf8 Classes ClassProofs BreakSpec BreakSpecProofs ClusterWords ClassCor.
From Verif Require Grapheme GraphemeSpec GraphemeProofs GraphemeCor Words WordSpec WordVerdict WordCor PropertiesStrings PropertiesGrapheme PropertiesWords.
Import ListNotations.
Open Scope Z_scope.

(* the breakers with these tables *)
Definition gstep : option Grapheme.gbreaker -> Z -> option Grapheme.gbreaker * Z * list Z := Grapheme.gb_step gtable pict.
Definition wstep : option Words.wbreaker -> Z -> option Words.wbreaker * Z * list Z := Words.wb_step wtable pict.
(* the segments that a breaker delivers, to the end of the text *)
Definition run {B} (b : B) (step : option B -> Z -> option B * Z * list Z) (text : list Z) : option (list (list Z)) :=
  match (let* s := InitFromSlice deque_ops text (NewSegmenter [Some b]) in loop deque_ops step (length text + 2) s) with
  | Ok (outs, true, _) => Some (map fst outs)
  | _ => None
  end.

(* ---- C49 ---- *)
(* A code point has at most one grapheme class and at most one word class, so the class that the
   lookup finds does not depend on the order of the classes. *)
Theorem C49_one_class :
  forall r c d, (gtable c r = true -> gtable d r = true -> c = d) /\ (wtable c r = true -> wtable d r = true -> c = d).
Proof. intros r c d. split; apply lookup_unique; [exact gtables_exclusive|exact wtables_exclusive]. Qed.
Print Assumptions C49_one_class.
Theorem C49_lookup_partial :
  forall r, r <> 0 ->
    (forall c, 0 <= c <= 12 -> (gclass r = c <-> gtable c r = true)) /\ (gclass r = Grapheme.Pictographic <-> pict r = true) /\
    (forall c, 0 <= c <= 17 -> (wclass r = c <-> wtable c r = true)) /\
    (Is letter_pictographics r = false -> (wclass r = Words.Pictographic <-> pict r = true)).
Proof.
  intros r R. split; [|split; [|split]].
  - intros c C. rewrite (gclass_table r c C). tauto.
  - exact (gclass_pict r).
  - intros c C. rewrite (wclass_table r c C). tauto.
  - intros L. rewrite wclass_pict. tauto.
Qed.
Print Assumptions C49_lookup_partial.
(* Every class is that of the table with its name. *)
Theorem C49_names :
  forall r, r <> 0 ->
    Forall (fun x => gclass r = fst x <-> Is (snd x) r = true) [
    (Grapheme.CR, GraphemeTab.CR); (Grapheme.LF, GraphemeTab.LF); (Grapheme.Prepend, GraphemeTab.Prepend);
    (Grapheme.Control, GraphemeTab.Control); (Grapheme.Extend, GraphemeTab.Extend);
    (Grapheme.RI, GraphemeTab.Regional_Indicator); (Grapheme.SpacingMark, GraphemeTab.SpacingMark);
    (Grapheme.cL, GraphemeTab.L); (Grapheme.cV, GraphemeTab.V); (Grapheme.cT, GraphemeTab.T); (Grapheme.cLV, GraphemeTab.LV);
    (Grapheme.cLVT, GraphemeTab.LVT); (Grapheme.ZWJ, GraphemeTab.ZWJ)] /\
    Forall (fun x => wclass r = fst x <-> Is (snd x) r = true) [
    (Words.ALetter, WordTab.ALetter); (Words.CR, WordTab.CR); (Words.Double_Quote, WordTab.Double_Quote);
    (Words.Extend, WordTab.Extend); (Words.ExtendNumLet, WordTab.ExtendNumLet); (Words.Format, WordTab.Format);
    (Words.Hebrew_Letter, WordTab.Hebrew_Letter); (Words.Katakana, WordTab.Katakana); (Words.LF, WordTab.LF);
    (Words.MidLetter, WordTab.MidLetter); (Words.MidNum, WordTab.MidNum); (Words.MidNumLet, WordTab.MidNumLet);
    (Words.Newline, WordTab.Newline); (Words.Numeric, WordTab.Numeric); (Words.RI, WordTab.Regional_Indicator);
    (Words.Single_Quote, WordTab.Single_Quote); (Words.WSegSpace, WordTab.WSegSpace); (Words.ZWJ, WordTab.ZWJ)].
Proof.
  intros r R. destruct (C49_lookup_partial r R) as (G & _ & W & _). split; repeat (apply Forall_cons; [cbn [fst snd]; rewrite ?G, ?W by (vm_compute; split; discriminate); reflexivity|]); apply Forall_nil.
Qed.
Print Assumptions C49_names.
Example C49_names_ex : wclass 44 = Words.MidNum /\ Is WordTab.MidNum 44 = true /\ wclass 46 = Words.MidNumLet.
Proof. vm_compute. auto. Qed.
(* The two files of classes agree with each other, as both are derived from the general categories of the code points
   (UAX#29, tables 2 and 3).  Marks which are no part of a cluster: letters written as marks in Myanmar, Tai Tham, Tai Aiton. *)
Definition loose_marks : ranges :=
  [(4139, 4140); (4152, 4152); (4194, 4196); (4199, 4205); (4227, 4227); (4231, 4236); (4239, 4239); (4250, 4252); (6753, 6753); (6755, 6756);
   (43643, 43643); (43645, 43645)].
Theorem C49_cross :
  forall r, r <> 0 ->
    (gclass r = Grapheme.CR <-> wclass r = Words.CR) /\ (gclass r = Grapheme.LF <-> wclass r = Words.LF) /\
    (gclass r = Grapheme.RI <-> wclass r = Words.RI) /\ (gclass r = Grapheme.ZWJ <-> wclass r = Words.ZWJ) /\
    (gclass r = Grapheme.Extend -> wclass r = Words.Extend) /\
    (gclass r = Grapheme.SpacingMark -> wclass r = Words.Extend \/ r = 3635 \/ r = 3763) /\
    (wclass r = Words.Extend -> gclass r = Grapheme.Extend \/ gclass r = Grapheme.SpacingMark \/ Is loose_marks r = true) /\
    (gclass r = Grapheme.Prepend -> wclass r = Words.Format \/ wclass r = Words.ALetter) /\
    (wclass r = Words.Format -> gclass r = Grapheme.Control \/ gclass r = Grapheme.Prepend) /\
    (wclass r = Words.Newline -> gclass r = Grapheme.Control) /\
    (Grapheme.cL <= gclass r <= Grapheme.cLVT -> wclass r = Words.ALetter).
Proof.
  intros r R. destruct (C49_names r R) as [G W].
  assert (GG : forall c t, In (c, t) (combine [0; 1; 2; 3; 4; 5; 6; 7; 8; 9; 10; 11; 12] rangeFromGraphemeClass) -> (gclass r = c <-> Is t r = true)).
  { intros c t I. rewrite Forall_forall in G. exact (G (c, t) I). }
  assert (WW : forall c t, In (c, t) (combine [0; 1; 2; 3; 4; 5; 6; 7; 8; 9; 10; 11; 12; 13; 14; 15; 16; 17] rangeFromUAX29Class) -> (wclass r = c <-> Is t r = true)).
  { intros c t I. rewrite Forall_forall in W. exact (W (c, t) I). }
  clear G W.
  assert (EQ : forall a b, subset a b = true -> subset b a = true -> (Is a r = true <-> Is b r = true)) by (intros a b A B; split; apply subset_sound; assumption).
  assert (SB : forall a b, subset a b = true -> Is a r = true -> Is b r = true) by (intros a b; apply subset_sound).
  rewrite (GG Grapheme.CR GraphemeTab.CR), (GG Grapheme.LF GraphemeTab.LF), (GG Grapheme.RI GraphemeTab.Regional_Indicator), (GG Grapheme.ZWJ GraphemeTab.ZWJ), (GG Grapheme.Extend GraphemeTab.Extend),
    (GG Grapheme.SpacingMark GraphemeTab.SpacingMark), (GG Grapheme.Prepend GraphemeTab.Prepend), (GG Grapheme.Control GraphemeTab.Control) by (cbn; tauto).
  rewrite (WW Words.CR WordTab.CR), (WW Words.LF WordTab.LF), (WW Words.RI WordTab.Regional_Indicator), (WW Words.ZWJ WordTab.ZWJ), (WW Words.Extend WordTab.Extend), (WW Words.Format WordTab.Format),
    (WW Words.ALetter WordTab.ALetter), (WW Words.Newline WordTab.Newline) by (cbn; tauto).
  split; [apply EQ; vm_compute; reflexivity|]. split; [apply EQ; vm_compute; reflexivity|]. split; [apply EQ; vm_compute; reflexivity|]. split; [apply EQ; vm_compute; reflexivity|].
  split; [apply SB; vm_compute; reflexivity|]. split.
  { intros H. apply (SB _ (WordTab.Extend ++ [(3635, 3635); (3763, 3763)])) in H; [|vm_compute; reflexivity]. rewrite Is_app in H. apply orb_true_iff in H. destruct H as [H|H]; [auto|]. right.
    unfold Is, in_range in H. cbn [existsb fst snd] in H. lia. }
  split.
  { intros H. apply (SB _ (GraphemeTab.Extend ++ GraphemeTab.SpacingMark ++ loose_marks)) in H; [|vm_compute; reflexivity]. rewrite !Is_app in H. apply orb_true_iff in H. destruct H as [H|H]; [auto|]. apply orb_true_iff in H. auto. }
  split.
  { intros H. apply (SB _ (WordTab.Format ++ WordTab.ALetter)) in H; [|vm_compute; reflexivity]. rewrite Is_app in H. now apply orb_true_iff in H. }
  split.
  { intros H. apply (SB _ (GraphemeTab.Control ++ GraphemeTab.Prepend)) in H; [|vm_compute; reflexivity]. rewrite Is_app in H. now apply orb_true_iff in H. }
  split; [apply SB; vm_compute; reflexivity|].
  intros H. unfold Grapheme.cL, Grapheme.cLVT in H. assert (X : gclass r = 7 \/ gclass r = 8 \/ gclass r = 9 \/ gclass r = 10 \/ gclass r = 11) by lia. clear H.
  destruct X as [X|[X|[X|[X|X]]]];
    [rewrite (GG 7 GraphemeTab.L) in X by (cbn; tauto)|rewrite (GG 8 GraphemeTab.V) in X by (cbn; tauto)|rewrite (GG 9 GraphemeTab.T) in X by (cbn; tauto)
    |rewrite (GG 10 GraphemeTab.LV) in X by (cbn; tauto)|rewrite (GG 11 GraphemeTab.LVT) in X by (cbn; tauto)]; revert X; apply SB; vm_compute; reflexivity.
Qed.
Print Assumptions C49_cross.
Example C49_cross_ex : gclass 3635 = Grapheme.SpacingMark /\ wclass 3635 <> Words.Extend /\ wclass 4139 = Words.Extend /\ gclass 4139 = Grapheme.Any /\
  gclass 1536 = Grapheme.Prepend /\ wclass 1536 = Words.Format /\ gclass 44033 = Grapheme.cLVT /\ wclass 44033 = Words.ALetter.
Proof. vm_compute. repeat split. discriminate. Qed.
(* The six pictographic characters that are also letters are unknown to rule WB3c, and only they. *)
Theorem C49_letter_pictographics_refuted :
  forall r, (pict r = true /\ wclass r <> Words.Pictographic) <-> In r [8505; 9410; 127344; 127345; 127358; 127359].
Proof.
  intros r. rewrite wclass_pict. transitivity (Is letter_pictographics r = true).
  - split; [intros [P N]; destruct (Is letter_pictographics r); tauto|]. intros L. rewrite L.
    split; [exact (proj1 (letter_pictographics_are r L))|]. intros []. discriminate.
  - unfold Is, letter_pictographics, in_range, existsb, fst, snd. cbn [In]. lia.
Qed.
Print Assumptions C49_letter_pictographics_refuted.
(* NUL is in the table of Control, but the lookup takes it for the end of the text. *)
Theorem C49_nul_refuted : gtable Grapheme.Control 0 = true /\ gclass 0 = Grapheme.eot /\ wclass 0 = Words.eot.
Proof. split; [|split]; vm_compute; reflexivity. Qed.
Print Assumptions C49_nul_refuted.
(* The Hangul classes are those computed from the syllable index (Unicode, section 3.12), the regional
   indicators are U+1F1E6 to U+1F1FF. *)
Theorem C49_hangul :
  forall r, (gclass r = Grapheme.cL <-> 4352 <= r <= 4447 \/ 43360 <= r <= 43388) /\
    (gclass r = Grapheme.cV <-> 4448 <= r <= 4519 \/ 55216 <= r <= 55238) /\
    (gclass r = Grapheme.cT <-> 4520 <= r <= 4607 \/ 55243 <= r <= 55291) /\
    (gclass r = Grapheme.cLV <-> 44032 <= r <= 55203 /\ (r - 44032) mod 28 = 0) /\
    (gclass r = Grapheme.cLVT <-> 44032 <= r <= 55203 /\ (r - 44032) mod 28 <> 0) /\
    (gclass r = Grapheme.RI <-> 127462 <= r <= 127487) /\ (wclass r = Words.RI <-> 127462 <= r <= 127487).
Proof.
  intros r. assert (S : syllable r = true <-> 44032 <= r <= 55203) by (unfold syllable; lia). rewrite <- S.
  split; [exact (gclass_L r)|]. split; [exact (gclass_V r)|]. split; [exact (gclass_T r)|]. split; [exact (gclass_LV r)|].
  split; [exact (gclass_LVT r)|]. split; [exact (gclass_RI r)|exact (wclass_RI r)].
Qed.
Print Assumptions C49_hangul.
(* So the breaker delivers a text of Hangul syllables one by one. *)
Theorem C49_hangul_text :
  forall text n, Forall (fun r => 44032 <= r <= 55203) text -> zlen text < MaxInt -> (length text + 1 < n)%nat ->
    exists s1 outs s', InitFromSlice deque_ops text (NewSegmenter [Some Grapheme.NewBreaker]) = Ok s1 /\
      loop deque_ops gstep n s1 = Ok (outs, true, s') /\ map fst outs = map (fun r => [r]) text /\ Err s' = None.
Proof.
  intros text n F Tt Hn. destruct (PropertiesGrapheme.C18_rules_but_GB9b gtable pict text n Tt Hn) as (s1 & outs & s' & I & L & O & E).
  exists s1, outs, s'. split; [exact I|]. split; [exact L|]. split; [|exact E]. rewrite O. apply syllables_apart.
  eapply Forall_impl; [|exact F]. intros r R. cbv beta in R |- *. unfold syllable. lia.
Qed.
Print Assumptions C49_hangul_text.
(* U+FFFD, which stands for every undecodable byte, is of class Control (graphemeclasses.go:211 and
   following: the surrogates were printed as U+FFFD): there is a boundary between it and whatever
   follows, also a combining mark. *)
Theorem C49_fffd_refuted :
  gclass 65533 = Grapheme.Control /\
  forall l x r n, let text := l ++ 65533 :: x :: r in gclass x = Grapheme.Extend -> zlen text < MaxInt -> (length text + 1 < n)%nat ->
    exists s1 outs s', InitFromSlice deque_ops text (NewSegmenter [Some Grapheme.NewBreaker]) = Ok s1 /\
      loop deque_ops gstep n s1 = Ok (outs, true, s') /\ In (S (length l)) (bounds 0 (map fst outs)).
Proof.
  split; [exact gclass_fffd|]. intros l x r n text _ Tt Hn.
  destruct (PropertiesGrapheme.C18_rules_but_GB9b gtable pict text n Tt Hn) as (s1 & outs & s' & I & L & O & E).
  exists s1, outs, s'. split; [exact I|]. split; [exact L|]. rewrite O. exact (fffd_cut false l x r).
Qed.
Print Assumptions C49_fffd_refuted.
Example C49_ex : map gclass [97; 769; 2307; 44032; 44033; 128104; 8205; 1536] =
    [Grapheme.Any; Grapheme.Extend; Grapheme.SpacingMark; Grapheme.cLV; Grapheme.cLVT; Grapheme.Pictographic; Grapheme.ZWJ; Grapheme.Prepend] /\
  map wclass [97; 769; 1488; 12450; 51; 44; 39; 34; 32; 128104; 8505] =
    [Words.ALetter; Words.Extend; Words.Hebrew_Letter; Words.Katakana; Words.Numeric; Words.MidNum; Words.Single_Quote; Words.Double_Quote;
     Words.WSegSpace; Words.Pictographic; Words.ALetter].
Proof. vm_compute. auto. Qed.
Example C49_fffd_ex : gclass 769 = Grapheme.Extend /\ run Grapheme.NewBreaker gstep [97; 65533; 769] = Some [[97]; [65533]; [769]].
Proof. vm_compute. auto. Qed.
Example C49_hangul_ex : run Grapheme.NewBreaker gstep [44032; 44033; 55203] = Some [[44032]; [44033]; [55203]].
Proof. vm_compute. auto. Qed.

(* ---- C50 ---- *)
(* Every word boundary is a boundary of grapheme clusters: for texts without SARA AM of Thai and Lao
   and without the six letters of C49, in which no mark follows a regional indicator. *)
Theorem C50_words_of_clusters_partial :
  forall text n, bare_flags text -> Forall (fun r => ~ In r [3635; 3763; 8505; 9410; 127344; 127345; 127358; 127359]) text ->
    zlen text < MaxInt -> (length text + 1 < n)%nat ->
    exists sg og sg' sw ow sw',
      InitFromSlice deque_ops text (NewSegmenter [Some Grapheme.NewBreaker]) = Ok sg /\ loop deque_ops gstep n sg = Ok (og, true, sg') /\
      InitFromSlice deque_ops text (NewSegmenter [Some Words.NewWordBreaker]) = Ok sw /\ loop deque_ops wstep n sw = Ok (ow, true, sw') /\
      incl (bounds 0 (map fst ow)) (bounds 0 (map fst og)).
Proof.
  intros text n B U Tt Hn. destruct (PropertiesGrapheme.C18_rules_but_GB9b gtable pict text n Tt Hn) as (sg & og & sg' & I & L & O & _).
  destruct (PropertiesWords.C24_rules_but_WB7b wtable pict text n Tt Hn) as (sw & ow & sw' & I' & L' & O' & _).
  exists sg, og, sg', sw, ow, sw'. do 4 (split; [assumption|]). rewrite O, O'. apply words_of_clusters; [exact B|].
  eapply Forall_impl; [|exact U]. intros r R. cbv beta in R. cbn [In] in R. unfold uneven, sara_am, letter_pictographics, app, Is, in_range, existsb, fst, snd. lia.
Qed.
Print Assumptions C50_words_of_clusters_partial.
Example C50_ex : let text := [97; 769; 32; 128104; 8205; 128104; 127462; 127463] in bare_flags text /\
  run Words.NewWordBreaker wstep text = Some [[97; 769]; [32]; [128104; 8205; 128104]; [127462; 127463]].
Proof.
  cbv zeta. split; [|vm_compute; reflexivity]. intros p x y q E R. apply wclass_RI in R.
  do 7 (destruct p as [|? p]; [injection E as <- <- <-; try lia; vm_compute; reflexivity|injection E as <- E]). destruct p as [|? [|? ?]]; discriminate E.
Qed.
(* Each of the exceptions is one: a word boundary inside a cluster.  KO KAI and SARA AM; "*", joiner and
   INFORMATION SOURCE after a pictographic; a mark between the first two of three regional indicators. *)
Theorem C50_divided_cluster_refuted :
  Forall (fun t : list Z * nat => exists sg og sg' sw ow sw',
      InitFromSlice deque_ops (fst t) (NewSegmenter [Some Grapheme.NewBreaker]) = Ok sg /\ loop deque_ops gstep 9 sg = Ok (og, true, sg') /\
      InitFromSlice deque_ops (fst t) (NewSegmenter [Some Words.NewWordBreaker]) = Ok sw /\ loop deque_ops wstep 9 sw = Ok (ow, true, sw') /\
      In (snd t) (bounds 0 (map fst ow)) /\ ~ In (snd t) (bounds 0 (map fst og)))
    [([3585; 3635], 1%nat); ([3713; 3763], 1%nat); ([128104; 8205; 8505], 2%nat); ([127462; 776; 127463; 127464], 3%nat)].
Proof.
  assert (G : forall text k, zlen text < MaxInt -> (length text + 1 < 9)%nat ->
    existsb (Nat.eqb k) (bounds 0 (segmentation (WordSpec.wb_break true wclass) text)) = true ->
    existsb (Nat.eqb k) (bounds 0 (segmentation (GraphemeSpec.gb_break false gclass) text)) = false ->
    exists sg og sg' sw ow sw',
      InitFromSlice deque_ops text (NewSegmenter [Some Grapheme.NewBreaker]) = Ok sg /\ loop deque_ops gstep 9 sg = Ok (og, true, sg') /\
      InitFromSlice deque_ops text (NewSegmenter [Some Words.NewWordBreaker]) = Ok sw /\ loop deque_ops wstep 9 sw = Ok (ow, true, sw') /\
      In k (bounds 0 (map fst ow)) /\ ~ In k (bounds 0 (map fst og))).
  { intros text k Tt Hn A B. destruct (PropertiesGrapheme.C18_rules_but_GB9b gtable pict text 9 Tt Hn) as (sg & og & sg' & I & L & O & _).
    destruct (PropertiesWords.C24_rules_but_WB7b wtable pict text 9 Tt Hn) as (sw & ow & sw' & I' & L' & O' & _).
    exists sg, og, sg', sw, ow, sw'. do 4 (split; [assumption|]). unfold gclass, wclass in *. rewrite O, O'. split.
    - apply existsb_exists in A. destruct A as (x & X & E). apply Nat.eqb_eq in E. subst. exact X.
    - intros X. apply not_true_iff_false in B. apply B. apply existsb_exists. exists k. split; [exact X|apply Nat.eqb_refl]. }
  repeat (apply Forall_cons; [apply G; [vm_compute; reflexivity|cbn; lia|vm_cast_no_check (eq_refl true)|vm_cast_no_check (eq_refl false)]|]). apply Forall_nil.
Qed.
Print Assumptions C50_divided_cluster_refuted.

(* ---- C51 ---- *)
(* The clusters of an ASCII text are its characters, except that CR LF is one. *)
Theorem C51_ascii_clusters :
  forall text n, Forall (fun r => 0 <= r <= 127) text -> zlen text < MaxInt -> (length text + 1 < n)%nat ->
    exists s1 outs s', InitFromSlice deque_ops text (NewSegmenter [Some Grapheme.NewBreaker]) = Ok s1 /\
      loop deque_ops gstep n s1 = Ok (outs, true, s') /\ map fst outs = ascii_clusters text /\ Err s' = None.
Proof.
  intros text n F Tt Hn. destruct (PropertiesGrapheme.C18_rules_but_GB9b gtable pict text n Tt Hn) as (s1 & outs & s' & I & L & O & E).
  exists s1, outs, s'. split; [exact I|]. split; [exact L|]. split; [|exact E]. rewrite O. now apply ascii_graphemes.
Qed.
Print Assumptions C51_ascii_clusters.
Example C51_ex : ascii_clusters [97; 13; 10; 10; 13; 98] = [[97]; [13; 10]; [10]; [13]; [98]].
Proof. reflexivity. Qed.
(* The words of a line of ASCII letters, digits, underscores and blanks are its maximal runs of blanks
   and its maximal runs of other characters. *)
Theorem C51_ascii_words :
  forall text n, Forall (fun r => identifier r = true \/ r = 32) text -> zlen text < MaxInt -> (length text + 1 < n)%nat ->
    exists s1 outs s', InitFromSlice deque_ops text (NewSegmenter [Some Words.NewWordBreaker]) = Ok s1 /\
      loop deque_ops wstep n s1 = Ok (outs, true, s') /\ map fst outs = segmentation kind_changes text /\ Err s' = None.
Proof.
  intros text n F Tt Hn. destruct (PropertiesWords.C24_rules_but_WB7b wtable pict text n Tt Hn) as (s1 & outs & s' & I & L & O & E).
  exists s1, outs, s'. split; [exact I|]. split; [exact L|]. split; [|exact E]. rewrite O. now apply identifier_words.
Qed.
Print Assumptions C51_ascii_words.
(* "x_1  9a b" *)
Example C51_words_ex : segmentation kind_changes [120; 95; 49; 32; 32; 57; 97; 32; 98] = [[120; 95; 49]; [32; 32]; [57; 97]; [32]; [98]].
Proof. reflexivity. Qed.

(* ---- C52 ---- *)
(* UTS#51, section 1.4: emoji presentation, modifiers and modifier bases are emoji; an emoji is a
   component or pictographic. *)
Theorem C52_inclusions :
  forall r, (etable 1 r = true \/ etable 2 r = true \/ etable 3 r = true -> etable 0 r = true) /\
    (etable 0 r = true -> etable 4 r = true \/ etable 5 r = true) /\ (etable 3 r = true -> etable 5 r = true).
Proof.
  intros r. destruct presentation_emoji as (S1 & S2 & S3). split; [|split].
  - intros [H|[H|H]]; [exact (subset_sound _ _ r S1 H)|exact (subset_sound _ _ r S2 H)|exact (subset_sound _ _ r S3 H)].
  - intros H. apply orb_true_iff. rewrite <- Is_app || idtac. pose proof (subset_sound _ _ r emoji_parts H) as X. rewrite Is_app in X. exact X.
  - intros H. exact (subset_sound _ _ r modifier_base_pict H).
Qed.
Print Assumptions C52_inclusions.
(* EmojisClassForRune gives the emoji class of a code point, -1 if and only if it has none. *)
Theorem C52_class :
  forall r, (eclass r = -1 <-> forall c, 0 <= c <= 5 -> etable c r = false) /\ (0 <= eclass r -> etable (eclass r) r = true).
Proof.
  intros r. unfold eclass, EmojisClassForRune. destruct (find _ _) as [c|] eqn:F.
  - apply find_some in F. destruct F as [I T]. split; [|auto]. split; [intros ->; cbn in I; lia|]. intros N.
    rewrite (N c) in T; [discriminate|cbn in I; lia].
  - split; [|lia]. split; [|auto]. intros _ c C. apply (find_none _ _ F). cbn [In]. lia.
Qed.
Print Assumptions C52_class.
(* But a character of the class Emoji_Presentation, Emoji_Modifier or Emoji_Modifier_Base is never
   reported as such. *)
Theorem C52_shadowed_refuted :
  (forall r, eclass r <> 1 /\ eclass r <> 2 /\ eclass r <> 3) /\ etable 1 8986 = true /\ etable 2 127995 = true /\ etable 3 9757 = true.
Proof.
  split; [|split; [|split]; vm_compute; reflexivity]. intros r. rewrite eclass_value.
  destruct (etable 0 r), (etable 4 r), (etable 5 r); lia.
Qed.
Print Assumptions C52_shadowed_refuted.
Example C52_ex : map eclass [97; 49; 169; 8205; 128104; 127995; 128898] = [-1; 0; 0; 4; 0; 0; -1] /\ eclass 9748 = 0 /\ eclass 9733 = 5.
Proof. vm_compute. auto. Qed.

(* ---- C46, with the table of emoji ---- *)
(* ASCII digits, # and * are two cells wide in every context. *)
Theorem C46_keycaps_wide_refuted :
  forall Zzzz script_of asian_script matches kind_of Latn en_US n r c,
    48 <= r <= 57 \/ r = 35 \/ r = 42 -> kind_of r = EastAsianNarrow ->
    exists c', Width Zzzz script_of asian_script matches (fun r => 0 <=? eclass r) kind_of Latn en_US (S n) (EncodeRune r) c
      = Ok (2, c') /\ uax11_wide (east_asian Zzzz script_of asian_script matches c) (kind_of r) = false.
Proof.
  intros Zzzz script_of asian_script matches kind_of Latn en_US n r c R K.
  destruct (PropertiesStrings.C46_width_value Zzzz script_of asian_script matches (fun r => 0 <=? eclass r) kind_of Latn en_US n r [] c) as [c' H].
  - unfold scalar, between. lia.
  - unfold RuneError. lia.
  - exists c'. rewrite app_nil_r in H. rewrite H, K, eclass_value, emoji_ascii by lia.
    replace (((48 <=? r) && (r <=? 57)) || (r =? 35) || (r =? 42)) with true by lia. auto.
Qed.
Print Assumptions C46_keycaps_wide_refuted.
(* The other ASCII characters are no emoji and one cell wide. *)
Theorem C46_ascii_partial :
  forall Zzzz script_of asian_script matches kind_of Latn en_US n r t c,
    0 < r <= 127 -> ~ 48 <= r <= 57 -> r <> 35 -> r <> 42 -> kind_of r = EastAsianNarrow ->
    exists c', Width Zzzz script_of asian_script matches (fun r => 0 <=? eclass r) kind_of Latn en_US (S n) (EncodeRune r ++ t) c = Ok (1, c').
Proof.
  intros Zzzz script_of asian_script matches kind_of Latn en_US n r t c R N1 N2 N3 K.
  destruct (PropertiesStrings.C46_uax11_partial Zzzz script_of asian_script matches (fun r => 0 <=? eclass r) kind_of Latn en_US n r t c) as [c' H].
  - unfold scalar, between. lia.
  - unfold RuneError. lia.
  - cbv beta. rewrite eclass_value, emoji_ascii by lia. replace (((48 <=? r) && (r <=? 57)) || (r =? 35) || (r =? 42)) with false by lia.
    assert (A : forallb (fun r => negb (etable 4 r || etable 5 r) || etable 0 r) ascii = true) by (vm_cast_no_check (eq_refl true)).
    rewrite forallb_forall in A. specialize (A r (ascii_in r ltac:(lia))). cbv beta in A. rewrite emoji_ascii in A by lia.
    replace (((48 <=? r) && (r <=? 57)) || (r =? 35) || (r =? 42)) with false in A by lia. rewrite orb_false_r, negb_true_iff, orb_false_iff in A.
    destruct A as [-> ->]. reflexivity.
  - rewrite K. discriminate.
  - exists c'. rewrite H, K. reflexivity.
Qed.
Print Assumptions C46_ascii_partial.
Example C46_keycaps_ex :
  let w r := Width 0 (fun x => x) (fun _ => false) (fun _ => false) (fun r => 0 <=? eclass r) (fun _ => EastAsianNarrow) 1 2 9 (EncodeRune r) None in
  w 49 = Ok (2, None) /\ w 97 = Ok (1, None).
Proof. vm_compute. auto. Qed.
