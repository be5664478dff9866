(* PropertiesTestFile.v -- C45: test files of any contents, break tests of any text. *)
From Coq Require Import String List ZArith Lia Bool.
From Verif Require Import Base Utf8 LineBuf UcdParse UcdSpec UcdGenProofs TestFileExact TestFileWords.
From Verif Require Generator.
Import ListNotations.
Open Scope Z_scope.

(* Every call of Scan on a file of any lines: true once for every line that is no comment, then false; text and comment
   are the last ones that have been given. *)
Theorem C45_scans : forall n lines text comment, scans n (mktf lines text comment) = map (report (tests lines) text comment) (seq 0 n).
Proof. exact scans_exact. Qed.
Print Assumptions C45_scans.
Example C45_scans_ex : scans 5 (mktf [Generator.bytes "# head"; Generator.bytes "x # y"; []; Generator.bytes "z"; Generator.bytes "#"; Generator.bytes "u#v#w"] [] []) =
  [(true, Generator.bytes "x ", Generator.bytes " y"); (true, Generator.bytes "x ", Generator.bytes " y"); (true, Generator.bytes "z", Generator.bytes " y");
   (true, Generator.bytes "u", Generator.bytes "v"); (false, Generator.bytes "u", Generator.bytes "v")].
Proof. vm_compute. reflexivity. Qed.
(* So a test is reported as it is written exactly if nothing old shows through. *)
Theorem C45_reported_iff : forall lines text comment k l, nth_error (tests lines) k = Some l ->
  let before := firstn k (tests lines) in
  (nth_error (scans (S k) (mktf lines text comment)) k = Some (true, fst (test_line l), snd (test_line l)) <->
   (l = [] -> latest text_of before text = []) /\ (snd (before_hash (TrimSpace l)) = None -> latest comment_of before comment = [])).
Proof.
  intros lines text comment k l E before. rewrite scans_exact. rewrite nth_error_map.
  assert (NS : nth_error (seq 0 (S k)) k = Some k). { rewrite (nth_error_nth' (seq 0 (S k)) 0%nat) by (rewrite seq_length; lia). f_equal. rewrite seq_nth by lia. lia. }
  rewrite NS. cbn [option_map]. unfold report. assert (LT : (k < List.length (tests lines))%nat) by (apply nth_error_Some; congruence). replace (k <? List.length (tests lines))%nat with true by (symmetry; now apply Nat.ltb_lt).
  assert (FS : firstn (S k) (tests lines) = before ++ [l]).
  { subst before. revert E. generalize (tests lines). clear. induction k as [|k IH]; intros [|x t] E; cbn [nth_error] in E; try discriminate; [injection E as ->; reflexivity|]. rewrite !(firstn_cons _ x t). cbn [app]. f_equal. now apply IH. }
  rewrite FS. unfold latest at 1 2. rewrite !fold_left_app. cbn [fold_left]. fold (latest text_of before text). fold (latest comment_of before comment). unfold test_line.
  destruct l as [|b l].
  - change (TrimSpace []) with (@nil Z). cbn [before_hash text_of comment_of fst snd]. split; [intros H; injection H as -> ->; auto|]. intros [-> ->]; auto.
  - cbn [text_of comment_of]. destruct (before_hash (TrimSpace (b :: l))) as [x [y|]]; cbn [fst snd].
    + split; [intros _; split; intros; discriminate|reflexivity].
    + split; [intros H; injection H as ->; split; [discriminate|auto]|]. intros [_ H]. now rewrite (H eq_refl).
Qed.
Print Assumptions C45_reported_iff.
Example C45_reported_ex : nth_error (scans 2 (mktf [Generator.bytes "x"; Generator.bytes "z"] [] [])) 1 = Some (true, Generator.bytes "z", []) /\
  nth_error (scans 2 (mktf [Generator.bytes "x#y"; Generator.bytes "z"] [] [])) 1 = Some (true, Generator.bytes "z", Generator.bytes "y").
Proof. split; vm_compute; reflexivity. Qed.

(* A break test of any text: its code points are those of all words that are no sign; its segments are the groups of words
   that a break sign closes, without the empty ones. *)
Theorem C45_break_any : forall ti,
  BreakTestInput ti = (concat (map spelled (groups (ScanWords ti))), filter nonempty (map spelled (removelast (groups (ScanWords ti))))).
Proof. exact break_exact. Qed.
Print Assumptions C45_break_any.
(* The segments make up the text exactly if nothing is behind the last break sign. *)
Theorem C45_break_complete_iff : forall ti, concat (snd (BreakTestInput ti)) = fst (BreakTestInput ti) <-> spelled (last (groups (ScanWords ti)) []) = [].
Proof.
  intros ti. rewrite break_exact. cbn [fst snd]. destruct (groups_cons (ScanWords ti)) as (g & gs & ->).
  assert (F : forall l : list (list Z), concat (filter nonempty l) = concat l). { induction l as [|[|b x] t IH]; cbn [filter nonempty concat app]; [reflexivity|exact IH|]. cbn [concat]. now rewrite IH. }
  rewrite F. assert (NE : g :: gs <> []) by discriminate. rewrite (app_removelast_last [] NE) at 2. rewrite map_app, concat_app. cbn [map concat]. rewrite app_nil_r.
  split; [|intros ->; now rewrite app_nil_r]. intros H. rewrite <- app_nil_r in H at 1. apply app_inv_head in H. now rewrite <- H.
Qed.
Print Assumptions C45_break_complete_iff.
Example C45_break_any_ex : BreakTestInput (Generator.bytes "0041 " ++ break_sign ++ Generator.bytes " " ++ break_sign ++ Generator.bytes " 0042 0043 " ++ break_sign ++ Generator.bytes " 0044") = (Generator.bytes "ABCD", [Generator.bytes "A"; Generator.bytes "BC"]).
Proof. vm_compute. reflexivity. Qed.

(* The same without the model's scanners.  Words are what is between the white space of Unicode.  A word that is no sign
   stands for its hexadecimal number modulo 2^32; it is 0 if it is no number, and 2^64 - 1 if it is too large. *)
Theorem C45_break_words : forall ti, exists cs, decodes ti cs /\
  let gs := groups (filter nonempty (between_spaces cs)) in
  BreakTestInput ti = (concat (map group_text gs), filter nonempty (map group_text (removelast gs))).
Proof. intros ti. destruct (decodes_total (length ti) ti (le_n _)) as (cs & D). exists cs. split; [exact D|]. apply break_words, D. Qed.
Print Assumptions C45_break_words.
(* tab, ideographic space, lower case, a number above 2^32, no number *)
Example C45_break_words_ex : BreakTestInput (Generator.bytes "004a" ++ [9] ++ Generator.bytes "100000042" ++ [227; 128; 128] ++ Generator.bytes "xyz " ++ break_sign) = (Generator.bytes "JB" ++ [0], [Generator.bytes "JB" ++ [0]]) /\
  map word_number [Generator.bytes "004a"; Generator.bytes "100000042"; Generator.bytes "xyz"; Generator.bytes "10000000000000000"] = [74; 4294967362; 0; 2 ^ 64 - 1].
Proof. split; vm_compute; reflexivity. Qed.
(* A decoding is unique. *)
Theorem C45_decodes_unique : forall s cs ds, decodes s cs -> decodes s ds -> cs = ds.
Proof. exact decodes_unique. Qed.
Print Assumptions C45_decodes_unique.
