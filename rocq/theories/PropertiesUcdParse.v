(* PropertiesUcdParse.v -- C40 to C45: the parser for files of the Unicode Character Database and the table
   generators built on it. *)
From Coq Require Import String Ascii List ZArith Lia.
From Verif Require Import Base RuneWrite Segmenter Utf8 LineBuf Ucd UcdProofs UcdSpec LineBufProofs UcdParse UcdParseProofs UcdItemProofs
  UcdFileProofs UcdFailProofs UcdGenProofs UcdTests Brackets.
Import ListNotations.
Open Scope Z_scope.

(* the bytes of a string literal *)
Definition bytes (s : string) : list Z := map (fun a => Z.of_nat (nat_of_ascii a)) (list_ascii_of_string s).
Definition nl : list Z := [10].

(* ---- C40: lines ---- *)
(* Whatever pieces the reader delivers its bytes in, and whichever way it ends: the lines of the text are read
   one by one, then the reader's error is reported.  Lines end with LF, CR or CR LF; there must not be 64K
   without LF. *)
Theorem C40_lines_partial :
  forall file sizes e ls n, lines_of file ls -> short_lines file -> (length ls < n)%nat ->
    scan_all n (NewScanner file sizes e) = Ok (ls, match e with EOF => None | _ => Some e end).
Proof. intros file sizes e ls n. apply scan_file. Qed.
Print Assumptions C40_lines_partial.
(* every text has lines *)
Theorem C40_lines_exist : forall s, exists ls, lines_of s ls /\ forall ls', lines_of s ls' -> ls' = ls.
Proof. intros s. destruct (lines_exist s) as [ls L]. exists ls. split; auto. intros ls' L'. eapply lines_fun; eauto. Qed.
Print Assumptions C40_lines_exist.
Example C40_ex : lines_of (bytes "a" ++ [13; 10] ++ bytes "b" ++ [13] ++ bytes "c" ++ [10; 10] ++ bytes "d") [bytes "a"; bytes "b"; bytes "c"; []; bytes "d"] /\
  scan_all 9 (NewScanner (bytes "a" ++ [13; 10] ++ bytes "b" ++ [13] ++ bytes "c" ++ [10; 10] ++ bytes "d") [1; 1; 1; 2; 1] EOF)
    = Ok ([bytes "a"; bytes "b"; bytes "c"; []; bytes "d"], None).
Proof.
  split; [|reflexivity].
  do 5 (eapply lines_one; [discriminate|reflexivity|]). constructor.
Qed.

(* ---- C41: items ---- *)
(* A file of comments, blank lines and well-formed items gives a token for the document, then one token for
   each item with its line number, its range, its fields (up to white space) and its comment. *)
Theorem C41_items_partial :
  forall isNd n file sizes ls its, short_lines file -> lines_of file ls -> contents 1 ls its -> (length file + 3 <= n)%nat ->
    exists ps, Parse isNd n (NewScanner file sizes EOF) = Ok (ps, NoErr) /\
      match its with
      | [] => ps = []
      | _ => exists doc ps', ps = doc :: ps' /\ TokenType doc = docRoot /\ Fields doc = [] /\ Range doc = (0, 0) /\ Forall2 denotes its ps'
      end.
Proof. exact parse_items. Qed.
Print Assumptions C41_items_partial.
Definition sample : list Z := bytes "# sample" ++ nl ++ nl ++ bytes "0041..005a ; X;y # upper" ++ nl ++ bytes "1F600;Z" ++ nl.
Lemma num_0041 : numeral (bytes "0041") 65.
Proof. exists [(true, 0); (true, 0); (true, 4); (true, 1)]. repeat split; try reflexivity; [discriminate|]. repeat (constructor; [cbn; lia|]). constructor. Qed.
Lemma num_005a : numeral (bytes "005a") 90.
Proof. exists [(true, 0); (true, 0); (true, 5); (false, 10)]. repeat split; try reflexivity; [discriminate|]. repeat (constructor; [cbn; lia|]). constructor. Qed.
Lemma num_1F600 : numeral (bytes "1F600") 128512.
Proof. exists [(true, 1); (true, 15); (true, 6); (true, 0); (true, 0)]. repeat split; try reflexivity; [discriminate|]. repeat (constructor; [cbn; lia|]). constructor. Qed.
Definition upper : item := mkitem 65 (Some 90) [bytes " X"; bytes "y "] (Some (bytes " upper")).
Definition smile : item := mkitem 128512 None [bytes "Z"] None.
Ltac all_chars := match goal with |- Forall _ ?l => let l' := eval vm_compute in l in change l with l' end; repeat (apply Forall_cons; [unfold field_char; lia|]); apply Forall_nil.
Lemma upper_written : written upper (bytes "0041..005a ; X;y # upper").
Proof.
  exists (bytes "0041"), (bytes "..005a"), (bytes " "). split; [exact num_0041|]. split; [exists (bytes "005a"); split; [reflexivity|exact num_005a]|].
  split; [repeat constructor|reflexivity].
Qed.
Lemma upper_ok : item_ok upper.
Proof.
  split; [cbn; lia|]. split; [cbn; lia|]. split; [discriminate|]. split; [|cbn; intuition lia].
  constructor; [all_chars|]. constructor; [all_chars|constructor].
Qed.
Lemma smile_written : written smile (bytes "1F600;Z").
Proof. exists (bytes "1F600"), [], []. split; [exact num_1F600|]. split; [reflexivity|]. split; [constructor|reflexivity]. Qed.
Lemma smile_ok : item_ok smile.
Proof. split; [cbn; lia|]. split; [exact I|]. split; [discriminate|]. split; [|exact I]. constructor; [all_chars|constructor]. Qed.
Lemma sample_lines : lines_of sample [bytes "# sample"; []; bytes "0041..005a ; X;y # upper"; bytes "1F600;Z"].
Proof. do 4 (eapply lines_one; [discriminate|reflexivity|]). constructor. Qed.
Lemma sample_contents : contents 1 [bytes "# sample"; []; bytes "0041..005a ; X;y # upper"; bytes "1F600;Z"] [(3, upper); (4, smile)].
Proof.
  apply contents_skip. { right. exists [], (bytes " sample"). split; [constructor|reflexivity]. }
  apply contents_skip. { left. constructor. }
  apply (contents_item 3 _ _ upper); [exact upper_written|exact upper_ok|exact I|].
  apply (contents_item 4 _ _ smile); [exact smile_written|exact smile_ok|exact I|]. constructor.
Qed.
Lemma short_if s : zlen s < 65536 -> short_lines s.
Proof. intros L a b c -> _. unfold zlen in *. rewrite !app_length in L. lia. Qed.
Example C41_ex : short_lines sample /\ lines_of sample [bytes "# sample"; []; bytes "0041..005a ; X;y # upper"; bytes "1F600;Z"] /\
  contents 1 [bytes "# sample"; []; bytes "0041..005a ; X;y # upper"; bytes "1F600;Z"] [(3, upper); (4, smile)] /\
  Parse (fun _ => false) 60 (NewScanner sample [3; 1; 7] EOF) = Ok ([
    mktok 3 1 docRoot 0 0 [] [] NoErr;
    mktok 3 1 rangeDataItem 65 90 [bytes " X"; bytes "y"] (bytes "upper") NoErr;
    mktok 4 1 singleDataItem 128512 128512 [bytes "Z"] [] NoErr], NoErr).
Proof. split; [now apply short_if|]. split; [exact sample_lines|]. split; [exact sample_contents|]. vm_compute. reflexivity. Qed.
(* An empty first field followed by others is dropped: the second field becomes the first. *)
Theorem C41_empty_field_refuted :
  exists it ps t, written it (bytes "0041;;X") /\ item_ok it /\
    Parse (fun _ => false) 20 (NewScanner (bytes "0041;;X") [] EOF) = Ok (ps ++ [t], NoErr) /\
    nth 1 (it_fields it) [] = bytes "X" /\ Fields t = [bytes "X"].
Proof.
  exists (mkitem 65 None [[]; bytes "X"] None), [mktok 1 1 docRoot 0 0 [] [] NoErr], (mktok 1 1 singleDataItem 65 65 [bytes "X"] [] NoErr). split.
  { exists (bytes "0041"), [], []. split; [exact num_0041|]. split; [reflexivity|]. split; [constructor|reflexivity]. }
  split. { split; [cbn; lia|]. split; [exact I|]. split; [discriminate|]. split; [|exact I]. constructor; [constructor|]. constructor; [all_chars|constructor]. }
  split; [vm_compute; reflexivity|]. split; reflexivity.
Qed.
Print Assumptions C41_empty_field_refuted.
(* A line that ends behind the digits: the last digit is lost. *)
Theorem C41_last_digit_refuted :
  exists t, Parse (fun _ => false) 20 (NewScanner (bytes "0041") [] EOF) = Ok ([mktok 1 1 docRoot 0 0 [] [] NoErr; t], NoErr) /\
    numeral (bytes "0041") 65 /\ Range t = (4, 4).
Proof. exists (mktok 1 1 singleDataItem 4 4 [[]] [] NoErr). split; [vm_compute; reflexivity|]. split; [exact num_0041|reflexivity]. Qed.
Print Assumptions C41_last_digit_refuted.
(* A comment is cut off at its first #. *)
Theorem C41_comment_refuted :
  exists t, Parse (fun _ => false) 20 (NewScanner (bytes "0041;X # a #b") [] EOF) = Ok ([mktok 1 1 docRoot 0 0 [] [] NoErr; t], NoErr) /\
    Comment t = bytes "a".
Proof. exists (mktok 1 1 singleDataItem 65 65 [bytes "X"] (bytes "a") NoErr). split; vm_compute; reflexivity. Qed.
Print Assumptions C41_comment_refuted.
(* An indented item is reported as NUL, or, on the first line with content, not at all. *)
Theorem C41_indented_refuted :
  (exists d t, Parse (fun _ => false) 40 (NewScanner (bytes "0040;W" ++ nl ++ bytes " 0041;X" ++ nl) [] EOF) = Ok ([d; t; mktok 2 1 singleDataItem 0 0 [bytes "0041"; bytes "X"] [] NoErr], NoErr)) /\
  (exists d, Parse (fun _ => false) 40 (NewScanner (bytes " 0041;X" ++ nl) [] EOF) = Ok ([d], Indented) /\ TokenType d = docRoot).
Proof.
  split.
  - exists (mktok 1 1 docRoot 0 0 [] [] NoErr), (mktok 1 1 singleDataItem 64 64 [bytes "W"] [] NoErr). vm_compute. reflexivity.
  - exists (mktok 1 1 docRoot 0 0 [] [] Indented). split; vm_compute; reflexivity.
Qed.
Print Assumptions C41_indented_refuted.

(* ---- C42: termination ---- *)
(* Any bytes at all: if the reader ends with EOF and there are no 64K without LF, parsing ends without a panic
   and with at most one token for each line and one for the document. *)
Theorem C42_ends_partial :
  forall isNd n file sizes ls, short_lines file -> lines_of file ls -> (length file + 3 <= n)%nat ->
    exists ps e, Parse isNd n (NewScanner file sizes EOF) = Ok (ps, e) /\ (length ps <= length ls + 1)%nat.
Proof. exact parse_total. Qed.
Print Assumptions C42_ends_partial.
Example C42_ex : short_lines [255; 46; 46; 10; 35; 13; 59; 59; 71] /\ lines_of [255; 46; 46; 10; 35; 13; 59; 59; 71] [[255; 46; 46]; [35]; [59; 59; 71]] /\
  Parse (fun _ => false) 12 (NewScanner [255; 46; 46; 10; 35; 13; 59; 59; 71] [] EOF) =
    Ok ([mktok 1 1 docRoot 0 0 [] [] NoErr; mktok 1 1 singleDataItem 0 0 [[239; 191; 189; 46; 46]] [] NoErr; mktok 3 1 singleDataItem 0 0 [bytes "G"] [] NoErr], NoErr).
Proof. split; [now apply short_if|]. split; [do 3 (eapply lines_one; [discriminate|reflexivity|]); constructor|vm_compute; reflexivity]. Qed.
(* If the reader fails, or a line is too long for the scanner, Parse does not return: it panics or hands out tokens
   for ever. *)
Theorem C42_failing_reader_refuted :
  forall isNd n file sizes e r, e <> EOF \/ ~ short_lines file -> Parse isNd n (NewScanner file sizes e) <> Ok r.
Proof.
  intros isNd n file sizes e r [E|L]; [apply parse_doomed; auto|].
  intros H. destruct e; [|apply (parse_doomed isNd n file sizes Failed r) in H; auto; left; discriminate|apply (parse_doomed isNd n file sizes TooLong r) in H; auto; left; discriminate].
  now apply parse_long in H.
Qed.
Print Assumptions C42_failing_reader_refuted.
(* both happen: a panic, and tokens for ever (here with a bound of 1000 rounds) *)
Example C42_failing_ex :
  Parse (fun _ => false) 1000 (NewScanner (bytes "# x" ++ nl) [] Failed) = Panic /\
  Parse (fun _ => false) 1000 (NewScanner (bytes "0041;X" ++ nl) [] Failed) = NoFuel /\
  ~ short_lines (repeat 35 (Z.to_nat 65536)).
Proof.
  split; [reflexivity|]. split; [vm_compute; reflexivity|]. intros S.
  specialize (S [] (repeat 35 (Z.to_nat 65536)) [] (eq_sym (app_nil_r _))). unfold zlen in S. rewrite repeat_length in S.
  assert (~ In 10 (repeat 35 (Z.to_nat 65536))) as N by (intros I; apply repeat_spec in I; lia). specialize (S N). lia.
Qed.

(* ---- C43: the table generator ---- *)
(* For every well-formed file and category field: the table of a category is collected from exactly the ranges
   of the items with this category, in the order of the file; other categories have no table. *)
Theorem C43_tables_partial :
  forall isNd n prefix f file sizes ls its, short_lines file -> lines_of file ls -> contents 1 ls its -> (length file + 3 <= n)%nat -> (2 <= f)%nat ->
    exists tbl, tablegen isNd n prefix (Z.of_nat f) (NewScanner file sizes EOF) = Ok tbl /\
      forall cat, cat <> [] -> lookup tbl (cat_name prefix cat) = match ranges_in f cat (map snd its) with [] => None | rs => Some (collect rs) end.
Proof. exact tablegen_ok. Qed.
Print Assumptions C43_tables_partial.
(* Together with C38: what the printed table contains, if the ranges of the category are sorted. *)
Theorem C43_printed_partial :
  forall isNd n prefix f file sizes ls its cat, short_lines file -> lines_of file ls -> contents 1 ls its -> (length file + 3 <= n)%nat -> (2 <= f)%nat ->
    cat <> [] -> ranges_in f cat (map snd its) <> [] -> sorted_from (-1) (ranges_in f cat (map snd its)) ->
    exists tbl rt, tablegen isNd n prefix (Z.of_nat f) (NewScanner file sizes EOF) = Ok tbl /\ lookup tbl (cat_name prefix cat) = Some rt /\
      let '(r16, r32, _) := Output rt in let rs := ranges_in f cat (map snd its) in
      forall c, member c (r16 ++ r32) <-> (c = 0 \/ member c rs) /\ ~ within c (last_block 0 0 rs) \/ (c = 0 /\ exists r t, rs = (0, r) :: t).
Proof.
  intros isNd n prefix f file sizes ls its cat SH L C N F NE RN S. destruct (tablegen_ok isNd n prefix f file sizes ls its SH L C N F) as (tbl & E & T).
  exists tbl, (collect (ranges_in f cat (map snd its))). split; auto. split; [|exact (collected _ S)].
  rewrite (T cat NE). destruct (ranges_in f cat (map snd its)); congruence.
Qed.
Print Assumptions C43_printed_partial.
Example C43_ex : ranges_in 2 (bytes "X") [upper; smile] = [(65, 90)] /\ sorted_from (-1) [(65, 90)] /\
  exists rt1 rt2, tablegen (fun _ => false) 60 (bytes "P") 2 (NewScanner sample [] EOF) = Ok [(bytes "P_X", rt1); (bytes "P_Z", rt2)] /\ rt1 = collect [(65, 90)].
Proof. split; [reflexivity|]. split; [cbn; lia|]. do 2 eexists. split; [vm_compute; reflexivity|reflexivity]. Qed.
(* The table of X in the sample has lost A to Z and contains NUL. *)
Theorem C43_refuted :
  exists tbl rt, tablegen (fun _ => false) 60 [] 2 (NewScanner sample [] EOF) = Ok tbl /\ lookup tbl (bytes "X") = Some rt /\
    member 65 (ranges_in 2 (bytes "X") [upper; smile]) /\ (let '(r16, r32, _) := Output rt in ~ member 65 (r16 ++ r32) /\ member 0 (r16 ++ r32)).
Proof.
  do 2 eexists. split; [vm_compute; reflexivity|]. split; [reflexivity|]. split; [constructor; cbv; split; discriminate|].
  cbn. split; [|constructor; cbv; split; discriminate]. intros M. apply member_one in M. unfold within in M. cbn in M. lia.
Qed.
Print Assumptions C43_refuted.
(* Field position 1 is documented as possible; the generator panics on every file with an item. *)
Theorem C43_field_1_refuted :
  forall isNd n prefix file sizes ls its, short_lines file -> lines_of file ls -> contents 1 ls its -> (length file + 3 <= n)%nat -> its <> [] ->
    tablegen isNd n prefix 1 (NewScanner file sizes EOF) = Panic.
Proof. exact tablegen_field_1. Qed.
Print Assumptions C43_field_1_refuted.

(* ---- C44: the bracket generator ---- *)
(* For every well-formed file of bracket lines: the table pairs each opening bracket with its partner, in the
   order of the file. *)
Theorem C44_brackets_partial :
  forall isNd n file sizes ls its prs, short_lines file -> lines_of file ls -> contents 1 ls its -> (length file + 3 <= n)%nat ->
    bracket_pairs (map snd its) prs -> readBrackets isNd n (NewScanner file sizes EOF) = Ok prs.
Proof. exact readBrackets_ok. Qed.
Print Assumptions C44_brackets_partial.
Definition paren_o : item := mkitem 40 None [bytes " 0029"; bytes " o "] (Some (bytes " LEFT PARENTHESIS")).
Definition paren_c : item := mkitem 41 None [bytes " 0028"; bytes " c "] (Some (bytes " RIGHT PARENTHESIS")).
Example C44_ex : bracket_pairs [paren_o; paren_c] [(40, 41)] /\
  readBrackets (fun _ => false) 90 (NewScanner (bytes "0028; 0029; o # LEFT PARENTHESIS" ++ nl ++ bytes "0029; 0028; c # RIGHT PARENTHESIS" ++ nl) [5] EOF) = Ok [(40, 41)].
Proof.
  split; [|vm_compute; reflexivity]. apply UcdSpec.bp_open; [|reflexivity|apply UcdSpec.bp_other; [discriminate|constructor]].
  exists (bytes " "), (bytes "0029"), [], [bytes " o "]. split; [repeat constructor|]. split; [constructor|].
  split; [exists [(true, 0); (true, 0); (true, 2); (true, 9)]; repeat split; try reflexivity; [discriminate|repeat (constructor; [cbn; lia|]); constructor]|]. split; [cbn; lia|reflexivity].
Qed.
(* The table in the repository is the one generated from the file in the repository. *)
Theorem C44_repository : readBrackets (fun _ => false) 400 (NewScanner BidiBrackets_txt [] EOF) = Ok uax9BracketPairs.
Proof. exact brackets_generated. Qed.
Print Assumptions C44_repository.

(* ---- C45: break tests ---- *)
(* A break test written with any blanks between its words gives the text and its segments in UTF-8. *)
Theorem C45_break_test :
  forall segs ws ti, test_words segs ws -> spaced ws ti -> Forall (Forall (fun c => c < 2 ^ 31)) segs ->
    BreakTestInput ti = (enc (concat segs), map enc segs).
Proof. exact BreakTestInput_ok. Qed.
Print Assumptions C45_break_test.
Example C45_ex : test_words [[65; 65]; [128512]] [break_sign; bytes "0041"; nobreak_sign; bytes "0041"; break_sign; bytes "1F600"; break_sign] /\
  BreakTestInput (break_sign ++ bytes " 0041 " ++ nobreak_sign ++ bytes "  0041 " ++ break_sign ++ bytes " 1F600 " ++ break_sign) = (bytes "AA" ++ [240; 159; 152; 128], [bytes "AA"; [240; 159; 152; 128]]).
Proof.
  split; [|vm_compute; reflexivity].
  apply (tw_seg [65; 65] [bytes "0041"; nobreak_sign; bytes "0041"]); [apply sw_more; [exact num_0041|apply sw_one; exact num_0041]|].
  apply (tw_seg [128512] [bytes "1F600"]); [apply sw_one; exact num_1F600|constructor].
Qed.
(* Without the closing sign the last segment is missing. *)
Theorem C45_unclosed_refuted : BreakTestInput (break_sign ++ bytes " 0041") = (bytes "A", []).
Proof. reflexivity. Qed.
Print Assumptions C45_unclosed_refuted.
(* A word that is not a number is not noticed: it is read as U+0000; a number that is too large as U+FFFD. *)
Theorem C45_bad_word_refuted :
  (forall p b t, Forall (fun c => hexval c <> None) p -> (length p <= 15)%nat -> hexval b = None -> to_rune (parse_uint (p ++ b :: t)) = 0) /\
  BreakTestInput (break_sign ++ bytes " 00x1 " ++ break_sign) = ([0], [[0]]) /\
  BreakTestInput (break_sign ++ bytes " 10000000000000000 " ++ break_sign) = ([239; 191; 189], [[239; 191; 189]]).
Proof.
  split; [|split; reflexivity]. intros p b t F L N.
  assert (G : forall q j acc, Forall (fun c => hexval c <> None) q -> 0 <= acc < 16 ^ Z.of_nat j -> (j + length q <= 15)%nat -> uint_loop acc (q ++ b :: t) = 0).
  { induction q as [|c q IH]; intros j acc Fq A Lq; cbn [app uint_loop].
    - now rewrite N.
    - pose proof (Forall_inv Fq) as Hc. cbn [length] in Lq. assert (B : 16 ^ Z.of_nat j <= 2 ^ 60) by (change (2 ^ 60) with (16 ^ 15); apply Z.pow_le_mono_r; lia).
      destruct (hexval c) as [d|] eqn:E; [|congruence]. destruct (Z.leb_spec (2 ^ 60) acc); [lia|].
      apply (IH (S j)); [exact (Forall_inv_tail Fq)| |lia]. rewrite Nat2Z.inj_succ, Z.pow_succ_r by lia.
      assert (0 <= d < 16); [|lia]. unfold hexval, between in E.
      repeat match type of E with (if andb ?x ?y then _ else _) = _ => destruct x eqn:?, y eqn:?; cbn [andb] in E; try (injection E as <-; lia) end; discriminate E. }
  unfold parse_uint. rewrite (G p 0%nat 0 F ltac:(cbn; lia) L). reflexivity.
Qed.
Print Assumptions C45_bad_word_refuted.
(* Scanning a test file without empty lines, in which each test has a comment: every test with its comment,
   then false. *)
Theorem C45_test_file_partial :
  forall n lines text comment, (forall l, In l lines -> l <> []) -> (forall l, In l lines -> is_comment l = false -> has_comment l) ->
    n = length (filter (fun l => negb (is_comment l)) lines) ->
    exists t c, scans (S n) (mktf lines text comment) = map (fun l => (true, fst (test_line l), snd (test_line l))) (filter (fun l => negb (is_comment l)) lines) ++ [(false, t, c)].
Proof. exact scans_ok. Qed.
Print Assumptions C45_test_file_partial.
Example C45_test_file_ex : scans 3 (mktf [bytes "# head"; bytes "x # y"; bytes "z#w"] [] []) = [(true, bytes "x ", bytes " y"); (true, bytes "z", bytes "w"); (false, bytes "z", bytes "w")] /\
  has_comment (bytes "x # y").
Proof. split; [reflexivity|]. eexists. reflexivity. Qed.
(* After an empty line the previous test is reported again; a test without comment gets the previous one. *)
Theorem C45_stale_refuted :
  scans 2 (mktf [bytes "x # y"; []] [] []) = [(true, bytes "x ", bytes " y"); (true, bytes "x ", bytes " y")] /\
  scans 2 (mktf [bytes "x # y"; bytes "z"] [] []) = [(true, bytes "x ", bytes " y"); (true, bytes "z", bytes " y")].
Proof. split; reflexivity. Qed.
Print Assumptions C45_stale_refuted.
