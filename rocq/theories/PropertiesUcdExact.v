(* PropertiesUcdExact.v -- C40: the lines of every file; C41: the tokens of every file, and when the code point of a line is read as it is written; C43, C44, C53: the
   generators on every file. *)
From Coq Require Import String Ascii List ZArith Lia.
From Verif Require Import Base RuneWrite Segmenter Utf8 LineBuf Ucd UcdProofs UcdSpec LineBufProofs UcdParse UcdParseProofs UcdItemProofs
  UcdFileProofs UcdFailProofs UcdGenProofs LineBufLong UcdExact UcdExactGen GoSource Generator PropertiesUcdParse.
Import ListNotations.
Open Scope Z_scope.

(* C41, every file: whatever the bytes of the file, Parse delivers one token for each line that is neither blank nor a comment, computed
   from that line alone, with a document token in front that takes the place of the first line if it is indented; the error returned is
   the last one of these tokens. *)
Theorem C41_tokens isNd n file sizes ls :
  short_lines file -> lines_of file ls -> (length file + 3 <= n)%nat ->
  Parse isNd n (NewScanner file sizes EOF) = Ok (file_tokens isNd ls, last_error (file_tokens isNd ls)).
Proof. exact (file_exact isNd n file sizes ls). Qed.
Print Assumptions C41_tokens.
(* bytes that are no UTF-8, a carriage return, a range without numbers *)
Example C41_tokens_ex :
  let file := [255; 46; 46; 10; 35; 13; 10; 59; 59; 71; 10; 46; 46; 10] in
  short_lines file /\ lines_of file [[255; 46; 46]; [35]; [59; 59; 71]; [46; 46]] /\
  Parse (fun _ => false) 30 (NewScanner file [] EOF) =
    Ok ([mktok 1 1 docRoot 0 0 [] [] NoErr; mktok 1 1 singleDataItem 0 0 [[239; 191; 189; 46; 46]] [] NoErr;
        mktok 3 1 singleDataItem 0 0 [[71]] [] NoErr; mktok 4 1 rangeDataItem 0 0 [[]] [] NoErr], NoErr).
Proof.
  cbv zeta. split; [now apply short_if|]. split; [do 4 (eapply lines_one; [discriminate|reflexivity|]); constructor|]. vm_compute. reflexivity.
Qed.

(* C41, the first number: a line that begins with a numeral gets its value as code point exactly if a character of one byte follows and
   the value is below 2^31 -- or if nothing follows and the value is 0.  At the end of the line the last digit is lost, and a character of
   several bytes makes the line an error. *)
Definition digits_of_hex : list Z := bytes "0123456789ABCDEFabcdef".
Definition hex_or_digit (isNd : Z -> bool) (c : Z) : bool := existsb (Z.eqb c) digits_of_hex || ((255 <? c) && isNd c).
Lemma hex_exact isNd c : isHexDigit isNd c = hex_or_digit isNd c.
Proof.
  unfold hex_or_digit. destruct (existsb (Z.eqb c) digits_of_hex) eqn:E.
  - apply existsb_exists in E. destruct E as (x & Hx & E). apply Z.eqb_eq in E. subst x. vm_compute in Hx. repeat (destruct Hx as [<-|Hx]; [reflexivity|]). contradiction.
  - unfold isHexDigit, IsDigit, between. cbn [orb].
    assert (N : Forall (fun x => c <> x) [48; 49; 50; 51; 52; 53; 54; 55; 56; 57; 65; 66; 67; 68; 69; 70; 97; 98; 99; 100; 101; 102]).
    { repeat constructor; intros ->; discriminate. } clear E.
    repeat match goal with H : Forall _ (_ :: _) |- _ => inversion H; clear H; subst end.
    destruct (Z.leb_spec c 255), (Z.ltb_spec 255 c); try lia; cbn [andb].
    rewrite (proj2 (Z.leb_gt c 102)), (proj2 (Z.leb_gt c 70)) by lia. rewrite !Bool.andb_false_r, !Bool.orb_false_r. reflexivity.
Qed.
Theorem C41_single isNd k d v s :
  numeral d v -> hex_or_digit isNd (la s) = false -> la s <> 46 ->
  (Error (line_token isNd (k, d ++ s)) = NoErr /\ Range (line_token isNd (k, d ++ s)) = (v, v)) <->
  (v < 2 ^ 31 /\ s <> [] /\ snd (DecodeRune s) = 1) \/ (s = [] /\ v = 0).
Proof. rewrite <- hex_exact. apply single_iff. Qed.
Print Assumptions C41_single.
(* "0041", "0041;" and "0041" before an e with acute accent *)
Example C41_single_ex : numeral (bytes "0041") 65 /\ hex_or_digit (fun _ => false) (la (bytes "G;")) = false /\
  Range (line_token (fun _ => false) (1, bytes "0041")) = (4, 4) /\ Range (line_token (fun _ => false) (1, bytes "0041;")) = (65, 65) /\
  Error (line_token (fun _ => false) (1, bytes "0041" ++ [195; 169])) = HexError.
Proof. split; [exact num_0041|]. vm_compute. repeat split. Qed.

(* ---- the generators on every file ---- *)
(* C43: whatever the file, tablegen makes one table for each category that occurs in field f of some token, collected from exactly the
   ranges of the tokens of that category, in the order of the file -- lines with an error and the document token have no category. *)
Theorem C43_any isNd n prefix f file sizes ls :
  short_lines file -> lines_of file ls -> (length file + 3 <= n)%nat -> (2 <= f)%nat ->
  exists tbl, tablegen isNd n prefix (Z.of_nat f) (NewScanner file sizes EOF) = Ok tbl /\
    NoDup (map fst tbl) /\ (forall k, In k (map fst tbl) -> exists cat, cat <> [] /\ k = cat_name prefix cat) /\
    forall cat, cat <> [] -> lookup tbl (cat_name prefix cat) = match tok_ranges f cat (file_tokens isNd ls) with [] => None | rs => Some (collect rs) end.
Proof. exact (tablegen_any isNd n prefix f file sizes ls). Qed.
Print Assumptions C43_any.
(* two lines of category X around an ill-formed one *)
Example C43_any_ex :
  let file := bytes "0041;X" ++ nl ++ bytes "FFFFFFFFF;X" ++ nl ++ bytes "..;X#;Y" ++ nl in
  short_lines file /\ lines_of file [bytes "0041;X"; bytes "FFFFFFFFF;X"; bytes "..;X#;Y"] /\
  tok_ranges 2 (bytes "X") (file_tokens (fun _ => false) [bytes "0041;X"; bytes "FFFFFFFFF;X"; bytes "..;X#;Y"]) = [(65, 65); (0, 0)].
Proof.
  cbv zeta. split; [now apply short_if|]. split; [do 3 (eapply lines_one; [discriminate|reflexivity|]); constructor|]. vm_compute. reflexivity.
Qed.
(* C43, the field: below 2 the generator panics exactly if some line is read without an error. *)
Theorem C43_panics_iff isNd n prefix f file sizes ls :
  short_lines file -> lines_of file ls -> (length file + 3 <= n)%nat -> f < 2 ->
  tablegen isNd n prefix f (NewScanner file sizes EOF) =
    if existsb (fun t => match Error t with NoErr => true | _ => false end) (tl (file_tokens isNd ls)) then Panic else Ok [].
Proof. intros SH L N F. rewrite <- file_fields. now apply tablegen_low. Qed.
Print Assumptions C43_panics_iff.
Example C43_panics_ex : tablegen (fun _ => false) 30 [] 1 (NewScanner (bytes "FFFFFFFFF;X" ++ nl) [] EOF) = Ok [] /\
  tablegen (fun _ => false) 30 [] 1 (NewScanner (bytes "FFFFFFFFF;X" ++ nl ++ bytes "?" ++ nl) [] EOF) = Panic.
Proof. split; vm_compute; reflexivity. Qed.

(* C44: whatever the file, readBrackets gives the first code point and the first field of each token with an o in its second field, and
   nothing at all if the last error of the file is one. *)
Theorem C44_any isNd n file sizes ls :
  short_lines file -> lines_of file ls -> (length file + 3 <= n)%nat ->
  readBrackets isNd n (NewScanner file sizes EOF) =
    Ok (match last_error (file_tokens isNd ls) with NoErr => map tok_pair (filter tok_opens (file_tokens isNd ls)) | _ => [] end).
Proof. exact (readBrackets_any isNd n file sizes ls). Qed.
Print Assumptions C44_any.
(* a range with a partner that is no number: the pair (40, 0) *)
Example C44_any_ex :
  let file := bytes "0028..0030;zz;o" ++ nl in
  short_lines file /\ lines_of file [bytes "0028..0030;zz;o"] /\ readBrackets (fun _ => false) 30 (NewScanner file [] EOF) = Ok [(40, 0)].
Proof. cbv zeta. split; [now apply short_if|]. split; [eapply lines_one; [discriminate|reflexivity|constructor]|]. vm_compute. reflexivity. Qed.

(* C53: whatever the file, the generators of the class tables load for each class exactly the code points of the tokens with that class as
   first field, in the order of the file -- unless a range ends at the largest number, which is never left behind. *)
Theorem C53_any isNd n file sizes ls :
  short_lines file -> lines_of file ls -> (length file + 3 <= n)%nat ->
  if existsb endless (file_tokens isNd ls) then load isNd n (NewScanner file sizes EOF) = NoFuel
  else exists tbl, load isNd n (NewScanner file sizes EOF) = Ok (tbl, NoErr) /\ NoDup (map fst tbl) /\
       forall key, value tbl key = if existsb (fun t => list_eqb (tok_class t) key) (file_tokens isNd ls) then Some (tok_listing key (file_tokens isNd ls)) else None.
Proof. exact (load_any isNd n file sizes ls). Qed.
Print Assumptions C53_any.
(* an ill-formed line puts NUL in the class without name *)
Example C53_any_ex :
  let file := bytes "0041;X" ++ nl ++ bytes "FFFFFFFFF;X" ++ nl in
  short_lines file /\ lines_of file [bytes "0041;X"; bytes "FFFFFFFFF;X"] /\
  load (fun _ => false) 40 (NewScanner file [] EOF) = Ok ([([], [0; 0]); (bytes "X", [65])], NoErr).
Proof. cbv zeta. split; [now apply short_if|]. split; [do 2 (eapply lines_one; [discriminate|reflexivity|]); constructor|]. vm_compute. reflexivity. Qed.

(* ---- C40: every file ---- *)
(* A line feed that does not come within 64K stops the scanner: it delivers exactly the lines in front, then reports ErrTooLong instead of
   the reader's error -- even where carriage returns divide those 64K into short lines. *)
Theorem C40_too_long_refuted p q ls sizes e n :
  lines_of p ls -> closed p -> short_lines p -> too_long q -> (length ls < n)%nat -> scan_all n (NewScanner (p ++ q) sizes e) = Ok (ls, Some TooLong).
Proof. apply scan_file_long. Qed.
Print Assumptions C40_too_long_refuted.
(* a line, then a text of 64K in short lines divided by carriage returns *)
Example C40_too_long_ex :
  let q := concat (repeat [35; 13] (Z.to_nat 32768)) in
  closed (bytes "a" ++ nl) /\ lines_of (bytes "a" ++ nl) [bytes "a"] /\ too_long q /\ first_line q = ([35], concat (repeat [35; 13] (Z.to_nat 32767))).
Proof.
  assert (LN : forall k, zlen (concat (repeat [35; 13] k)) = 2 * Z.of_nat k) by (induction k as [|k IH]; [reflexivity|cbn [repeat concat app]; rewrite !zlen_cons, IH; lia]).
  assert (FL : forall k, first_line (concat (repeat [35; 13] (S (S k)))) = ([35], concat (repeat [35; 13] (S k)))) by (intros k; reflexivity).
  cbv zeta. split; [right; now exists (bytes "a")|]. split; [eapply lines_one; [discriminate|reflexivity|constructor]|].
  split; [|replace (Z.to_nat 32768) with (S (S (Z.to_nat 32766))) by lia; replace (Z.to_nat 32767) with (S (Z.to_nat 32766)) by lia; apply FL].
  exists (concat (repeat [35; 13] (Z.to_nat 32768))), []. split; [now rewrite app_nil_r|]. split; [rewrite LN; unfold MaxToken; lia|].
  intros I. apply in_concat in I. destruct I as (x & IX & I). apply repeat_spec in IX. subst x. destruct I as [I|[I|[]]]; discriminate.
Qed.
(* The two cases are all: the lines delivered, for every file, every sequence of read sizes and every way the reader ends. *)
Theorem C40_every_file file :
  exists ls, (short_lines file /\ lines_of file ls /\
                forall sizes e n, (length ls < n)%nat -> scan_all n (NewScanner file sizes e) = Ok (ls, match e with EOF => None | _ => Some e end)) \/
             (exists p q, file = p ++ q /\ closed p /\ short_lines p /\ too_long q /\ lines_of p ls /\
                forall sizes e n, (length ls < n)%nat -> scan_all n (NewScanner file sizes e) = Ok (ls, Some TooLong)).
Proof.
  destruct (short_or_long (length file) file (le_n _)) as [SH|(p & q & -> & C & SH & TL)].
  - destruct (lines_exist file) as [ls L]. exists ls. left. split; [exact SH|]. split; [exact L|]. intros sizes e n N. now apply scan_file.
  - destruct (lines_exist p) as [ls L]. exists ls. right. exists p, q. split; [reflexivity|]. repeat (split; [assumption|]). intros sizes e n N. now apply scan_file_long.
Qed.
Print Assumptions C40_every_file.

(* ---- C42: exactly when Parse returns ---- *)
Theorem C42_returns_iff isNd n file sizes e :
  (length file + 3 <= n)%nat -> (exists r, Parse isNd n (NewScanner file sizes e) = Ok r) <-> e = EOF /\ short_lines file.
Proof.
  intros N. split.
  - intros (r & E). destruct (short_or_long (length file) file (le_n _)) as [SH|(p & q & EQ & C & SH & TL)].
    + split; [|exact SH]. destruct e; [reflexivity|exfalso|exfalso]; apply (C42_failing_reader_refuted isNd n file sizes _ r) in E; auto; left; discriminate.
    + exfalso. apply (C42_failing_reader_refuted isNd n file sizes e r) in E; auto. right. intros S. destruct TL as (a & c & -> & L & NI). specialize (S p a c EQ NI). unfold MaxToken in L. lia.
  - intros [-> SH]. destruct (lines_exist file) as [ls L]. eexists. exact (C41_tokens isNd n file sizes ls SH L N).
Qed.
Print Assumptions C42_returns_iff.
(* a file for which it returns, and one for which it does not *)
Example C42_returns_ex : short_lines (bytes "0041;X" ++ nl) /\ ~ short_lines (concat (repeat [35; 13] (Z.to_nat 32768))).
Proof.
  split; [now apply short_if|]. intros S. destruct C40_too_long_ex as (_ & _ & (a & c & E & L & NI) & _). specialize (S [] a c E NI). unfold MaxToken in L. lia.
Qed.
