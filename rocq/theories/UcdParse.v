(* UcdParse.v -- model of internal/ucdparse/ucdparse.go and scan.go (the parser for files of the Unicode
   Character Database), of testfiles.go, and of the callbacks in internal/tablegen/main.go and
   bidi/internal/gen/brackgen.go.  Printing is left out. *)
From Coq Require Import List ZArith Bool.
From Verif Require Import Base RuneWrite Segmenter Utf8 LineBuf Ucd.
Import ListNotations.
Open Scope Z_scope.

(* ucdparse.go:27-34 *)
Inductive toktype := undefined | eof | emptyDocument | docRoot | singleDataItem | rangeDataItem.
(* the error of a token: none, an indented first line, a number that cannot be decoded *)
Inductive tokerr := NoErr | Indented | HexError.
(* ucdparse.go:14-22 *)
Record token := mktok { LineNo : Z; ColNo : Z; TokenType : toktype; runeFrom : Z; runeTo : Z;
                        Fields : list (list Z); Comment : list Z; Error : tokerr }.
(* ucdparse.go:37-43 *)
Definition newScannerToken (line col : Z) : token := mktok line col undefined 0 0 [] [] NoErr.
Definition set_type (t : token) ty := mktok (LineNo t) (ColNo t) ty (runeFrom t) (runeTo t) (Fields t) (Comment t) (Error t).
Definition set_range (t : token) l r := mktok (LineNo t) (ColNo t) (TokenType t) l r (Fields t) (Comment t) (Error t).
Definition set_error (t : token) e := mktok (LineNo t) (ColNo t) (TokenType t) (runeFrom t) (runeTo t) (Fields t) (Comment t) e.
(* ucdparse.go:51-56 *)
Definition Field (t : token) (i : Z) : res (list Z) :=
  if (0 <? zlen (Fields t)) && (i <=? zlen (Fields t)) then lift (zget (Fields t) (i - 1)) else Ok [].
(* ucdparse.go:59-61 *)
Definition Range (t : token) : Z * Z := (runeFrom t, runeTo t).

(* the step functions, scan.go:31 *)
Inductive step := ScanFileStart | ScanItem | ScanRuneRange | ScanItemBody.
(* scan.go:20-25 *)
Record scanner := mksc { Buf : linebuf; Step : option step; ScError : tokerr; Tok : token }.

(* the value of a hexadecimal digit *)
Definition hexval (b : Z) : option Z :=
  if between 48 57 b then Some (b - 48) else if between 97 102 b then Some (b - 87)
  else if between 65 70 b then Some (b - 55) else None.
Fixpoint hex_loop (acc : Z) (s : list Z) : option Z :=
  match s with
  | [] => Some acc
  | b :: t => match hexval b with Some d => hex_loop (acc * 16 + d) t | None => None end
  end.
(* strconv.ParseInt(s, 16, 32) for non-empty s without a sign; None is an error *)
Definition ParseInt (s : list Z) : option Z :=
  match hex_loop 0 s with Some n => if n <? 2 ^ 31 then Some n else None | None => None end.

Section Digits.
(* unicode.IsDigit above Latin-1 (category Nd) *)
Context (isNd : Z -> bool).
Definition IsDigit (r : Z) : bool := if r <=? 255 then between 48 57 r else isNd r.
(* scan.go:182-184 *)
Definition isHexDigit (r : Z) : bool := IsDigit r || between 97 102 r || between 65 70 r.

(* scan.go:129-132, 150-154 and 161-164: match while a predicate holds of the lookahead, the number of rounds *)
Fixpoint match_while (n : nat) (p : Z -> bool) (buf : linebuf) (rounds : Z) : res (Z * linebuf) :=
  match n with
  | 0%nat => NoFuel
  | S n' =>
      let la := Lookahead buf in
      if p la then let* (_, buf) := matches n (fun arg => arg =? la) buf in match_while n' p buf (rounds + 1)
      else Ok (rounds, buf)
  end.
(* scan.go:133-147 and 165-178: the number in Text[marker:pos], if there is one; [Some None] is an error *)
Definition hex_word (buf : linebuf) (marker pos : Z) : res (option (option Z)) :=
  if marker <? pos then let* hex := lift (zslice (Text buf) marker pos) in Ok (Some (ParseInt hex)) else Ok None.
(* scan.go:123-180 *)
Definition scan_rune_range (n : nat) (t : token) (buf : linebuf) : res (token * option step * linebuf) :=
  let marker := if 0 <? ByteCursor buf then ByteCursor buf - 1 else ByteCursor buf in
  let* (_, buf) := match_while n isHexDigit buf 0 in
  let* h := hex_word buf marker (ByteCursor buf - 1) in
  match h with
  | Some None => Ok (set_error t HexError, None, buf)
  | _ =>
      let t := match h with Some (Some c) => set_range t c c | _ => t end in
      let* (dots, buf) := match_while n (fun la => la =? 46) buf 0 in
      if dots =? 0 then Ok (set_type t singleDataItem, Some ScanItemBody, buf)
      else
        let marker := ByteCursor buf - 1 in
        let* (_, buf) := match_while n isHexDigit buf 0 in
        let* h := hex_word buf marker (ByteCursor buf - 1) in
        match h with
        | Some None => Ok (set_error t HexError, None, buf)
        | _ =>
            let t := match h with Some (Some c) => set_range t (runeFrom t) c | _ => t end in
            Ok (set_type t rangeDataItem, Some ScanItemBody, buf)
        end
  end.
(* scan.go:186-198: the fields and the comment of the rest of a line *)
Definition item_body (rest : list Z) : list (list Z) * list Z :=
  let a := Split 35 rest in
  (Split 59 (TrimLeftByte 59 (TrimSpace (hd [] a))), match a with _ :: c :: _ => TrimSpace c | _ => [] end).
Definition scan_item_body (n : nat) (t : token) (buf : linebuf) : res (token * option step * linebuf) :=
  let* (rest, buf) := ReadLineRemainder n buf in
  let '(fields, comment) := item_body rest in
  Ok (mktok (LineNo t) (ColNo t) (TokenType t) (runeFrom t) (runeTo t) fields
            (match Split 35 rest with _ :: _ :: _ => comment | _ => Comment t end) (Error t), None, buf).
(* scan.go:100-115; Buf is never nil *)
Definition scan_file_start (t : token) (buf : linebuf) : res (token * option step * linebuf) :=
  let* ended := IsEof buf in
  if ended then Ok (set_type t emptyDocument, None, buf)
  else
    let t := set_type t docRoot in
    Ok (if Lookahead buf =? 32 then set_error t Indented else t, None, buf).
Definition run_step (n : nat) (s : step) (t : token) (buf : linebuf) : res (token * option step * linebuf) :=
  match s with
  | ScanFileStart => scan_file_start t buf
  | ScanItem => Ok (t, Some ScanRuneRange, buf)   (* scan.go:118-121 *)
  | ScanRuneRange => scan_rune_range n t buf
  | ScanItemBody => scan_item_body n t buf
  end.
(* scan.go:74-88: the chain of steps; the token is never nil *)
Fixpoint chain (m n : nat) (sc : scanner) : res scanner :=
  match m with
  | 0%nat => NoFuel
  | S m' =>
      match Step sc with
      | None => Ok sc
      | Some s =>
          let* (t, next, buf) := run_step n s (Tok sc) (Buf sc) in
          match Error t with
          | NoErr =>
              let* size := line_size buf in
              if size =? 0 then Ok (mksc buf next (ScError sc) t) else chain m' n (mksc buf next (ScError sc) t)
          | e => let* (_, buf) := AdvanceLine n buf in Ok (mksc buf next e t)
          end
      end
  end.
(* scan.go:65-91; a chain has at most three steps *)
Definition Next (n : nat) (sc : scanner) : res (bool * scanner) :=
  let t := newScannerToken (CurrentLine (Buf sc)) (Cursor (Buf sc)) in
  let* ended := IsEof (Buf sc) in
  if ended then Ok (false, mksc (Buf sc) (Step sc) (ScError sc) (set_type t eof))
  else
    let s := match Step sc with None => Some ScanItem | s => s end in
    let* sc := chain 5 n (mksc (Buf sc) s (ScError sc) t) in Ok (true, sc).
(* scan.go:34-42 *)
Definition New (n : nat) (input : bufscan) : res scanner :=
  let* buf := newLineBuffer n input in Ok (mksc buf (Some ScanFileStart) NoErr (newScannerToken 0 0)).
(* scan.go:50-53: the tokens handed to the callback, and the error returned; m bounds the rounds *)
Fixpoint parse_loop (m n : nat) (sc : scanner) (acc : list token) : res (list token * tokerr) :=
  match m with
  | 0%nat => NoFuel
  | S m' => let* (ok, sc) := Next n sc in if ok then parse_loop m' n sc (acc ++ [Tok sc]) else Ok (acc, ScError sc)
  end.
(* scan.go:45-54 *)
Definition Parse (n : nat) (input : bufscan) : res (list token * tokerr) :=
  let* sc := New n input in parse_loop n n sc [].
End Digits.

(* ---- testfiles.go ---- *)
(* testfiles.go:13-18: the remaining lines (bufio.ScanLines) instead of the file *)
Record testfile := mktf { tf_lines : list (list Z); tf_text : list Z; tf_comment : list Z }.
(* testfiles.go:36-59 *)
Fixpoint tf_scan (lines : list (list Z)) (text comment : list Z) : bool * testfile :=
  match lines with
  | [] => (false, mktf [] text comment)
  | l :: rest =>
      match l with
      | [] => (true, mktf rest text comment)
      | b :: _ =>
          if b =? 35 then tf_scan rest text comment
          else match Split 35 (TrimSpace l) with
               | p0 :: p1 :: _ => (true, mktf rest p0 p1)
               | p => (true, mktf rest (hd [] p) comment)
               end
      end
  end.
Definition TfScan (tf : testfile) : bool * testfile := tf_scan (tf_lines tf) (tf_text tf) (tf_comment tf).

(* strconv.ParseUint(s, 16, 64) with the error ignored: 0 for a syntax error, 2^64-1 out of range;
   rune(n) keeps the low 32 bits as a signed number *)
Fixpoint uint_loop (acc : Z) (s : list Z) : Z :=
  match s with
  | [] => acc
  | b :: t => match hexval b with Some d => if 2 ^ 60 <=? acc then 2 ^ 64 - 1 else uint_loop (acc * 16 + d) t | None => 0 end
  end.
Definition parse_uint (s : list Z) : Z := uint_loop 0 s.
Definition to_rune (n : Z) : Z := let k := n mod 2 ^ 32 in if k <? 2 ^ 31 then k else k - 2 ^ 32.
(* the words (bufio.ScanWords) of a test: break sign, no-break sign, or code point *)
Definition divsign : list Z := [195; 183].
Definition mulsign : list Z := [195; 151].
Fixpoint list_eqb (a b : list Z) : bool :=
  match a, b with [], [] => true | x :: s, y :: t => (x =? y) && list_eqb s t | _, _ => false end.
(* testfiles.go:84-98: inp, run and out *)
Fixpoint test_loop (words : list (list Z)) (inp run : list Z) (out : list (list Z)) : list Z * list (list Z) :=
  match words with
  | [] => (inp, out)
  | w :: rest =>
      if list_eqb w divsign then
        (if 0 <? zlen run then test_loop rest inp [] (out ++ [run]) else test_loop rest inp run out)
      else if list_eqb w mulsign then test_loop rest inp run out
      else let r := EncodeRune (to_rune (parse_uint w)) in test_loop rest (inp ++ r) (run ++ r) out
  end.
(* bufio.ScanWords over a complete text: the maximal runs without white space *)
Fixpoint words_loop (n : nat) (s : list Z) (word : list Z) : list (list Z) :=
  let flush := match word with [] => [] | _ => [word] end in
  match n, s with
  | S n', _ :: _ =>
      let '(r, size) := DecodeRune s in
      let k := Z.to_nat size in
      if IsSpace r then flush ++ words_loop n' (skipn k s) [] else words_loop n' (skipn k s) (word ++ firstn k s)
  | _, _ => flush
  end.
Definition ScanWords (s : list Z) : list (list Z) := words_loop (length s) s [].
(* testfiles.go:77-102 *)
Definition BreakTestInput (ti : list Z) : list Z * list (list Z) := test_loop (ScanWords ti) [] [] [].

(* ---- internal/tablegen/main.go ---- *)
(* main.go:114-125: the map from categories to collectors as an association list in the order of creation;
   [prefix] is the flag -x *)
Definition cat_name (prefix cat : list Z) : list Z := match prefix with [] => cat | _ => prefix ++ [95] ++ cat end.
Fixpoint tg_append (tbl : list (list Z * collector)) (cat : list Z) (l r : Z) : list (list Z * collector) :=
  match tbl with
  | [] => [(cat, Append new_collector l r)]
  | (c, rt) :: t => if list_eqb c cat then (c, Append rt l r) :: t else (c, rt) :: tg_append t cat l r
  end.
(* main.go:87-95 *)
Definition tg_callback (prefix : list Z) (catfield : Z) (tbl : list (list Z * collector)) (p : token) : res (list (list Z * collector)) :=
  let '(l, r) := Range p in
  let* f := Field p catfield in
  match TrimSpace f with [] => Ok tbl | t => Ok (tg_append tbl (cat_name prefix t) l r) end.
Fixpoint tg_collect (prefix : list Z) (catfield : Z) (tbl : list (list Z * collector)) (ps : list token) : res (list (list Z * collector)) :=
  match ps with
  | [] => Ok tbl
  | p :: t => let* tbl := tg_callback prefix catfield tbl p in tg_collect prefix catfield tbl t
  end.
(* main.go:65-103 for a file that has been parsed: the tables by category; the flag -f is 1-based.
   Parsing and collecting alternate in the program; the result is the same. *)
Definition tablegen (isNd : Z -> bool) (n : nat) (prefix : list Z) (f : Z) (input : bufscan) : res (list (list Z * collector)) :=
  let* (ps, _) := Parse isNd n input in tg_collect prefix (f - 1) [] ps.

(* ---- bidi/internal/gen/brackgen.go ---- *)
(* brackgen.go:79-83 *)
Definition readHexRune (inp : list Z) : Z := to_rune (parse_uint (TrimSpace inp)).
(* brackgen.go:61-70 *)
Fixpoint bg_collect (ps : list token) : res (list (Z * Z)) :=
  match ps with
  | [] => Ok []
  | p :: t =>
      let* typ := Field p 2 in
      if negb (list_eqb (TrimSpace typ) [111]) then bg_collect t
      else let* c := Field p 1 in let* rest := bg_collect t in Ok ((runeFrom p, readHexRune c) :: rest)
  end.
(* brackgen.go:52-77: nil stands for the exit on a parse error *)
Definition readBrackets (isNd : Z -> bool) (n : nat) (input : bufscan) : res (list (Z * Z)) :=
  let* (ps, e) := Parse isNd n input in
  match e with NoErr => bg_collect ps | _ => Ok [] end.
