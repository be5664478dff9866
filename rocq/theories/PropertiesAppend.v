(* PropertiesAppend.v -- C69: appended text changes the segments at the end only.
   [table], [pict], [comb], [isSpace] are arbitrary. *)
From Coq Require Import List ZArith Lia Bool.
From Verif Require Import Base RuneWrite Segmenter SegInv BreakSpec BreakSpecProofs SimpleWord SimpleWordProofs Append PropertiesResume.
From Verif Require Grapheme GraphemeSpec PropertiesGrapheme Words WordSpec PropertiesWords Line LineSpec LineCor LineAgree PropertiesLine PropertiesSegmenter.
Import ListNotations.
Open Scope Z_scope.

Lemma delivers_more {B} step (b0 : B) brk (ok : list (list Z) -> Prop) :
  (forall text n, zlen text < MaxInt -> (length text + 1 < n)%nat -> delivers step b0 n text (segmentation brk text)) ->
  (forall text more a b, segmentation brk text = a ++ b -> ok b -> exists b', segmentation brk (text ++ more) = a ++ b') ->
  forall text more n a b, zlen (text ++ more) < MaxInt -> (length (text ++ more) + 1 < n)%nat -> ok b ->
    delivers step b0 n text (a ++ b) -> exists b', delivers step b0 n (text ++ more) (a ++ b').
Proof.
  intros D X text more n a b Tt Hn K H.
  assert (E : segmentation brk text = a ++ b).
  { apply (delivers_fun step b0 n text); [apply D|exact H]; unfold zlen in *; rewrite app_length in *; lia. }
  destruct (X text more a b E K) as (b' & E'). exists b'. rewrite <- E'. now apply D.
Qed.

(* Graphemes: all segments but the last stay as they are, whatever follows the text. *)
Theorem C69_graphemes :
  forall table pict text more n a s, zlen (text ++ more) < MaxInt -> (length (text ++ more) + 1 < n)%nat ->
    delivers (Grapheme.gb_step table pict) Grapheme.NewBreaker n text (a ++ [s]) ->
    exists b, delivers (Grapheme.gb_step table pict) Grapheme.NewBreaker n (text ++ more) (a ++ b).
Proof.
  intros table pict text more n a s Tt Hn.
  apply (delivers_more _ _ (GraphemeSpec.gb_break false (Grapheme.CodePointClassFor table pict)) (fun b => exists s, b = [s])); eauto.
  - intros t m. exact (PropertiesGrapheme.C18_rules_but_GB9b table pict t m).
  - intros t m x y E (z & ->). exact (grapheme_extend _ _ t m x z E).
Qed.
Print Assumptions C69_graphemes.
(* Words: all but the last two. *)
Theorem C69_words :
  forall table pict text more n a s1 s2, zlen (text ++ more) < MaxInt -> (length (text ++ more) + 1 < n)%nat ->
    delivers (Words.wb_step table pict) Words.NewWordBreaker n text (a ++ [s1; s2]) ->
    exists b, delivers (Words.wb_step table pict) Words.NewWordBreaker n (text ++ more) (a ++ b).
Proof.
  intros table pict text more n a s1 s2 Tt Hn.
  apply (delivers_more _ _ (WordSpec.wb_break true (Words.CodePointClassFor table pict)) (fun b => exists s1 s2, b = [s1; s2])); eauto.
  - intros t m. exact (PropertiesWords.C24_rules_but_WB7b table pict t m).
  - intros t m x y E (z1 & z2 & ->). exact (word_extend _ t m x z1 z2 E).
Qed.
Print Assumptions C69_words.
(* Lines: all but the last two. *)
Theorem C69_lines :
  forall table comb text more n a s1 s2, zlen (text ++ more) < MaxInt -> (length (text ++ more) + 1 < n)%nat ->
    delivers (Line.lb_step table comb) Line.NewLineWrap n text (a ++ [s1; s2]) ->
    exists b, delivers (Line.lb_step table comb) Line.NewLineWrap n (text ++ more) (a ++ b).
Proof.
  intros table comb text more n a s1 s2 Tt Hn.
  apply (delivers_more _ _ (LineAgree.line_break LineSpec.code_break (LineCor.lcls table comb)) (fun b => exists s1 s2, b = [s1; s2])); eauto.
  - intros t m. exact (PropertiesLine.C39_line_breaks_of_code table comb t m).
  - intros t m x y E (z1 & z2 & ->). exact (line_extend _ t m x z1 z2 E).
Qed.
Print Assumptions C69_lines.
(* Simple words, with the penalties: all but the last, which is continued. *)
Lemma runs_extend isSpace more : forall text a s, runs isSpace text = a ++ [s] -> exists s' b, runs isSpace (text ++ more) = a ++ (s ++ s') :: b.
Proof.
  induction text as [|r t IH]; intros a s E; [destruct a; discriminate|]. destruct t as [|r' t].
  - destruct a as [|? [|]]; inversion E; subst. destruct (runs_hd isSpace r more) as (w & ws & E'). exists w, ws. exact E'.
  - destruct (runs_hd isSpace r' t) as (w & ws & E'). rewrite (runs_cons isSpace r r' t w ws E') in E.
    assert (K : forall a1 s1, runs isSpace (r' :: t) = a1 ++ [s1] -> exists s' b, runs isSpace (r' :: t ++ more) = a1 ++ (s1 ++ s') :: b) by exact IH.
    destruct (runs_hd isSpace r' (t ++ more)) as (w2 & ws2 & E2). cbn [app]. rewrite (runs_cons isSpace r r' _ w2 ws2 E2).
    destruct (Bool.eqb (isSpace r) (isSpace r')).
    + destruct a as [|x a]; cbn [app] in E; injection E as Ex Ey.
      * subst s ws. destruct (K [] (r' :: w) E') as (s' & b & K'). rewrite E2 in K'. cbn [app] in K'. injection K' as -> ->. exists s', b. reflexivity.
      * subst x. rewrite Ey in E'. destruct (K ((r' :: w) :: a) s E') as (s' & b & K'). rewrite E2 in K'. cbn [app] in K'. injection K' as -> ->. exists s', b. reflexivity.
    + destruct a as [|x a]; cbn [app] in E; injection E as Ex Ey; [discriminate|]. subst x. rewrite <- E2, Ey in *. destruct (K a s E') as (s' & b & K'). rewrite K'. exists s', b. reflexivity.
Qed.
Theorem C69_simple_words :
  forall isSpace text more n outs s p s1 t1, isSpace 0 = false -> Forall (fun r => r <> 0) (text ++ more) -> zlen (text ++ more) < MaxInt -> (length (text ++ more) + 1 < n)%nat ->
    InitFromSlice deque_ops text (NewSegmenter [NewSimpleWordBreaker]) = Ok s1 -> loop deque_ops (swb_step isSpace) n s1 = Ok (outs ++ [(s, p)], true, t1) ->
    exists s2 t2 s' outs', InitFromSlice deque_ops (text ++ more) (NewSegmenter [NewSimpleWordBreaker]) = Ok s2 /\
      loop deque_ops (swb_step isSpace) n s2 = Ok (outs ++ (s ++ s', p) :: outs', true, t2) /\ Err t2 = None.
Proof.
  intros isSpace text more n outs s p s1 t1 S0 NZ Tt Hn I L.
  assert (NZ1 := proj1 (proj1 (Forall_app _ _ _) NZ)).
  destruct (PropertiesSegmenter.C12_maximal_runs_slice isSpace text n S0 NZ1) as (x1 & x2 & I' & L' & _); [unfold zlen in *; rewrite app_length in *; lia..|].
  rewrite I in I'. injection I' as <-. rewrite L in L'. injection L' as E _.
  destruct (PropertiesSegmenter.C12_maximal_runs_slice isSpace (text ++ more) n S0 NZ Tt Hn) as (s2 & t2 & I2 & L2 & R2).
  symmetry in E. apply map_eq_app in E. destruct E as (a & l & Er & Ea & El). destruct l as [|w [|]]; [discriminate| |discriminate]. cbn in El. injection El as -> <-.
  destruct (runs_extend isSpace more text a s Er) as (s' & b & X). rewrite X, map_app, Ea in L2. cbn [map] in L2.
  assert (Ns : s <> []). { pose proof (runs_uniform isSpace text) as U. rewrite Er in U. apply Forall_app in U. destruct U as [_ U]. exact (proj1 (Forall_inv U)). }
  exists s2, t2, s', (map (run_out isSpace) b). split; [exact I2|]. split; [|exact R2]. rewrite L2. unfold run_out. destruct s; [congruence|]. reflexivity.
Qed.
Print Assumptions C69_simple_words.
(* More cannot be promised: the last word but one is changed, and the last line but one: "a'" and "b", "$(" and "1". *)
Theorem C69_two_needed :
  (exists table pict text more n x y z, delivers (Words.wb_step table pict) Words.NewWordBreaker n text [x; y] /\
    delivers (Words.wb_step table pict) Words.NewWordBreaker n (text ++ more) [z] /\ x <> z) /\
  (exists table comb text more n x y z, delivers (Line.lb_step table comb) Line.NewLineWrap n text [x; y] /\
    delivers (Line.lb_step table comb) Line.NewLineWrap n (text ++ more) [z] /\ x <> z).
Proof.
  split.
  - exists PropertiesWords.tab, PropertiesWords.pic, [97; 39], [98], 9%nat, [97], [39], [97; 39; 98]. split; [|split; [|discriminate]];
      (eexists _, _, _; split; [vm_compute; reflexivity|]; split; [vm_compute; reflexivity|]; split; vm_compute; reflexivity).
  - exists PropertiesLine.ltab, PropertiesLine.nocomb, [36; 40], [49], 9%nat, [36], [40], [36; 40; 49]. split; [|split; [|discriminate]];
      (eexists _, _, _; split; [vm_compute; reflexivity|]; split; [vm_compute; reflexivity|]; split; vm_compute; reflexivity).
Qed.
Print Assumptions C69_two_needed.
Example C69_ex :
  delivers (Grapheme.gb_step PropertiesGrapheme.tab PropertiesGrapheme.pic) Grapheme.NewBreaker 20 [97; 101; 127462] ([[97]; [101]] ++ [[127462]]) /\
  delivers (Grapheme.gb_step PropertiesGrapheme.tab PropertiesGrapheme.pic) Grapheme.NewBreaker 20 ([97; 101; 127462] ++ [127463; 769; 65]) ([[97]; [101]] ++ [[127462; 127463; 769]; [65]]) /\
  delivers (Words.wb_step PropertiesWords.tab PropertiesWords.pic) Words.NewWordBreaker 20 [97; 32; 49; 44] ([[97]; [32]] ++ [[49]; [44]]) /\
  delivers (Words.wb_step PropertiesWords.tab PropertiesWords.pic) Words.NewWordBreaker 20 ([97; 32; 49; 44] ++ [50; 32]) ([[97]; [32]] ++ [[49; 44; 50]; [32]]) /\
  delivers (Line.lb_step PropertiesLine.ltab PropertiesLine.nocomb) Line.NewLineWrap 20 [65; 32; 36; 40] ([[65; 32]] ++ [[36]; [40]]) /\
  delivers (Line.lb_step PropertiesLine.ltab PropertiesLine.nocomb) Line.NewLineWrap 20 ([65; 32; 36; 40] ++ [49; 32; 66]) ([[65; 32]] ++ [[36; 40; 49; 32]; [66]]).
Proof. repeat split; (eexists _, _, _; split; [vm_compute; reflexivity|]; split; [vm_compute; reflexivity|]; split; vm_compute; reflexivity). Qed.
Example C69_simple_words_ex : map (run_out PropertiesSegmenter.sp) (runs PropertiesSegmenter.sp [97; 98; 32]) = [([97; 98], (100, 0))] ++ [([32], (-100, 0))] /\
  runs PropertiesSegmenter.sp ([97; 98; 32] ++ [32; 99]) = [[97; 98]] ++ ([32] ++ [32]) :: [[99]].
Proof. split; vm_compute; reflexivity. Qed.
