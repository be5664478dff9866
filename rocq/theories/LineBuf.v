(* LineBuf.v -- model of internal/ucdparse/linebuf.go: reading the lines of a Unicode Character
   Database file.  Includes the documented behaviour of bufio.Scanner, strings.Reader and
   strings.TrimSpace as far as they are used.  Texts are lists of bytes. *)
From Coq Require Import List ZArith Bool.
From Verif Require Import Base RuneWrite Segmenter Utf8.
Import ListNotations.
Open Scope Z_scope.

Definition LF : Z := 10.
Definition CR : Z := 13.

(* ---- bufio.Scanner ---- *)
(* How a reader ends: io.EOF or another error. *)
Inductive ioerr := EOF | Failed | TooLong.
(* bufio.Scanner: the unread part of its buffer, the bytes the reader will still deliver, the number of bytes
   each of its next Read calls delivers (a list that is used up means: all that fit), how the
   reader ends, and the error met so far. *)
Record bufscan := mkbs { held : list Z; todo : list Z; sizes : list Z; ending : ioerr; serr : option ioerr }.
(* bufio.MaxScanTokenSize; the buffer grows up to this size *)
Definition MaxToken : Z := 65536.

(* bytes.IndexByte *)
Fixpoint index_byte (c : Z) (s : list Z) : option nat :=
  match s with
  | [] => None
  | b :: t => if b =? c then Some 0%nat else match index_byte c t with Some i => Some (S i) | None => None end
  end.
(* bufio.dropCR *)
Definition dropCR (s : list Z) : list Z :=
  match rev s with b :: t => if b =? CR then rev t else s | [] => s end.
(* bufio.ScanLines: bytes to advance and the token (None is nil) *)
Definition ScanLines (data : list Z) (atEOF : bool) : nat * option (list Z) :=
  if atEOF && (zlen data =? 0) then (0%nat, None)
  else match index_byte LF data with
       | Some i => (S i, Some (dropCR (firstn i data)))
       | None => if atEOF then (length data, Some (dropCR data)) else (0%nat, None)
       end.
(* linebuf.go:38-49: the first CR at a position below [limit] that has a successor other than LF *)
Fixpoint lone_CR (limit : nat) (data : list Z) : option nat :=
  match limit, data with
  | S l, ch :: t =>
      let next := match lone_CR l t with Some i => Some (S i) | None => None end in
      if ch =? CR then match t with c :: _ => if negb (c =? LF) then Some 0%nat else next | [] => next end else next
  | _, _ => None
  end.
(* linebuf.go:36-51: the split function *)
Definition split (data : list Z) (atEOF : bool) : nat * option (list Z) :=
  let '(advance, token) := ScanLines data atEOF in
  match lone_CR (match token with Some t => length t | None => 0%nat end) data with
  | Some i => (S i, Some (firstn i data))
  | None => (advance, token)
  end.

(* one Read of the reader into the free part of the buffer; a Read delivers at least one byte or
   reports the end (bufio repeats empty reads) *)
Definition read (b : bufscan) : bufscan :=
  match todo b with
  | [] => mkbs (held b) [] (sizes b) (ending b) (Some (ending b))
  | _ :: _ =>
      let room := MaxToken - zlen (held b) in
      let k := Z.to_nat (match sizes b with s :: _ => Z.max 1 (Z.min s room) | [] => room end) in
      mkbs (held b ++ firstn k (todo b)) (skipn k (todo b)) (tl (sizes b)) (ending b) (serr b)
  end.
Definition stopped (b : bufscan) : bool := match serr b with Some _ => true | None => false end.
(* bufio.Scanner.Scan: (true, token) or (false, empty); split never fails and never returns a token
   without advancing *)
Fixpoint scan_loop (n : nat) (b : bufscan) : res (bool * list Z * bufscan) :=
  match n with
  | 0%nat => NoFuel
  | S n' =>
      let more (b : bufscan) :=
        if stopped b then Ok (false, [], mkbs [] (todo b) (sizes b) (ending b) (serr b))
        else if zlen (held b) =? MaxToken then Ok (false, [], mkbs (held b) (todo b) (sizes b) (ending b) (Some TooLong))
        else scan_loop n' (read b) in
      if (0 <? zlen (held b)) || stopped b then
        let '(advance, token) := split (held b) (stopped b) in
        let b := mkbs (skipn advance (held b)) (todo b) (sizes b) (ending b) (serr b) in
        match token with
        | Some t => Ok (true, t, b)
        | None => more b
        end
      else more b
  end.
(* Every round but the first follows a Read, of which at most length (todo b) deliver bytes. *)
Definition Scan (b : bufscan) : res (bool * list Z * bufscan) := scan_loop (S (S (length (todo b)))) b.
(* bufio.Scanner.Err *)
Definition Err (b : bufscan) : option ioerr :=
  match serr b with Some EOF => None | e => e end.
Definition NewScanner (file : list Z) (sizes : list Z) (ending : ioerr) : bufscan := mkbs [] file sizes ending None.

(* for sc.Scan() { ... sc.Text() ... }: the lines read until Scan returns false, and Err *)
Fixpoint scan_all (n : nat) (b : bufscan) : res (list (list Z) * option ioerr) :=
  match n with
  | 0%nat => NoFuel
  | S n' => let* (ok, t, b) := Scan b in
            if ok then let* (ls, e) := scan_all n' b in Ok (t :: ls, e) else Ok ([], Err b)
  end.

(* ---- strings ---- *)
(* unicode.IsSpace *)
Definition IsSpace (r : Z) : bool :=
  between 9 13 r || (r =? 32) || (r =? 133) || (r =? 160) || (r =? 5760) || between 8192 8202 r
  || (r =? 8232) || (r =? 8233) || (r =? 8239) || (r =? 8287) || (r =? 12288).
(* utf8.DecodeLastRuneInString of a non-empty string given in reverse: the candidates for the start
   are the last four bytes *)
Fixpoint back_to_start (lim : nat) (seen : list Z) (rs : list Z) : list Z :=
  match lim, rs with
  | S l, b :: t => if RuneStart b then b :: seen else back_to_start l (b :: seen) t
  | _, _ => seen
  end.
Definition DecodeLast (rs : list Z) : Z * Z :=
  match rs with
  | [] => (RuneError, 0)
  | b :: t =>
      if b <? 128 then (b, 1)
      else let cand := back_to_start 3 [b] t in
           let '(r, size) := DecodeRune cand in
           if size =? zlen cand then (r, size) else (RuneError, 1)
  end.
(* strings.TrimLeftFunc(s, unicode.IsSpace); the fuel is the length *)
Fixpoint trim_left_loop (n : nat) (s : list Z) : list Z :=
  match n, s with
  | S n', _ :: _ =>
      let '(r, size) := DecodeRune s in if IsSpace r then trim_left_loop n' (skipn (Z.to_nat size) s) else s
  | _, _ => s
  end.
Definition TrimLeftSpace (s : list Z) : list Z := trim_left_loop (length s) s.
(* strings.TrimRightFunc(s, unicode.IsSpace) on the reversed string *)
Fixpoint trim_right_loop (n : nat) (rs : list Z) : list Z :=
  match n, rs with
  | S n', _ :: _ =>
      let '(r, size) := DecodeLast rs in if IsSpace r then trim_right_loop n' (skipn (Z.to_nat size) rs) else rs
  | _, _ => rs
  end.
Definition TrimRightSpace (s : list Z) : list Z := rev (trim_right_loop (length s) (rev s)).
(* strings.TrimSpace *)
Definition TrimSpace (s : list Z) : list Z := TrimRightSpace (TrimLeftSpace s).
(* strings.TrimLeft(s, ";") *)
Fixpoint TrimLeftByte (c : Z) (s : list Z) : list Z :=
  match s with b :: t => if b =? c then TrimLeftByte c t else s | [] => [] end.
(* strings.Split(s, sep) for a separator of one byte: never empty *)
Fixpoint Split (c : Z) (s : list Z) : list (list Z) :=
  match s with
  | [] => [[]]
  | b :: t => if b =? c then [] :: Split c t
              else match Split c t with f :: fs => (b :: f) :: fs | [] => [[b]] end
  end.
(* the class \s of package regexp *)
Definition re_space (b : Z) : bool := (b =? 9) || (b =? 10) || (b =? 12) || (b =? 13) || (b =? 32).
(* linebuf.go:144-153: the patterns ^\s*$ and ^\s*# *)
Fixpoint IsIgnoredLine (text : list Z) : bool :=
  match text with
  | [] => true
  | b :: t => if re_space b then IsIgnoredLine t else b =? 35
  end.

(* ---- the line buffer ---- *)
(* errAtEof, or an I/O error *)
Inductive lberr := AtEof | IOError.
(* linebuf.go:14-24.  Line is a strings.Reader (None: nil): its string and its position. *)
Record linebuf := mklb {
  Lookahead : Z; Cursor : Z; ByteCursor : Z; CurrentLine : Z; Input : bufscan; Text : list Z;
  Line : option (list Z * Z); isEof : Z; LastError : option lberr }.

Definition eolMarker : Z := 10.

(* buf.Line.Size(): panics for a nil reader *)
Definition line_size (buf : linebuf) : res Z := match Line buf with Some (s, _) => Ok (zlen s) | None => Panic end.
(* linebuf.go:61-63 *)
Definition IsEof (buf : linebuf) : res bool :=
  if 2 <=? isEof buf then Ok true else let* size := line_size buf in Ok (size =? 0).
(* linebuf.go:84-92, with strings.Reader.ReadRune; only called with a reader that is not nil *)
Definition readRune (buf : linebuf) : res (option lberr * Z * linebuf) :=
  match Line buf with
  | None => Panic
  | Some (s, pos) =>
      if zlen s <=? pos then Ok (Some IOError, 0, buf)
      else let '(r, len) := DecodeRune (skipn (Z.to_nat pos) s) in
           Ok (None, r, mklb (Lookahead buf) (Cursor buf + 1) (ByteCursor buf + len) (CurrentLine buf) (Input buf)
                             (Text buf) (Some (s, pos + len)) (isEof buf) (LastError buf))
  end.
Definition set_la (buf : linebuf) (r : Z) : linebuf :=
  mklb r (Cursor buf) (ByteCursor buf) (CurrentLine buf) (Input buf) (Text buf) (Line buf) (isEof buf) (LastError buf).
Definition set_err (buf : linebuf) (e : option lberr) : linebuf :=
  mklb (Lookahead buf) (Cursor buf) (ByteCursor buf) (CurrentLine buf) (Input buf) (Text buf) (Line buf) (isEof buf) e.
(* linebuf.go:68-82 *)
Definition AdvanceCursor (buf : linebuf) : res (option lberr * linebuf) :=
  if 2 <? isEof buf then Ok (Some AtEof, buf)
  else
    let* size := line_size buf in
    if size <=? ByteCursor buf then Ok (None, set_la buf eolMarker)
    else
      let* (e, r, buf) := readRune buf in
      match e with Some _ => Ok (e, buf) | None => Ok (None, set_la buf r) end.

(* linebuf.go:115-133: the loop over the lines; [n] bounds its rounds *)
Fixpoint line_loop (n : nat) (buf : linebuf) : res (option lberr * linebuf) :=
  match n with
  | 0%nat => NoFuel
  | S n' =>
      let* (ok, t, inp) := Scan (Input buf) in
      let buf := mklb (Lookahead buf) (Cursor buf) (ByteCursor buf) (CurrentLine buf + 1) inp (Text buf) (Line buf) (isEof buf) (LastError buf) in
      if negb ok then
        match Err inp with
        | Some _ => Ok (Some IOError, buf)
        | None => Ok (Some AtEof, mklb (Lookahead buf) (Cursor buf) (ByteCursor buf) (CurrentLine buf) inp (Text buf) (Some ([], 0)) 1 (LastError buf))
        end
      else
        let buf := mklb (Lookahead buf) (Cursor buf) (ByteCursor buf) (CurrentLine buf) inp t (Line buf) (isEof buf) (LastError buf) in
        if negb (IsIgnoredLine t) then Ok (None, buf) else line_loop n' buf
  end.
(* linebuf.go:104-136 *)
Definition AdvanceLine (n : nat) (buf : linebuf) : res (option lberr * linebuf) :=
  let buf := mklb (Lookahead buf) 0 0 (CurrentLine buf) (Input buf) (Text buf) (Line buf) (isEof buf) (LastError buf) in
  if isEof buf =? 1
  then Ok (Some AtEof, mklb (Lookahead buf) 0 0 (CurrentLine buf) (Input buf) (Text buf) (Line buf) 2 (LastError buf))
  else
    let* (e, buf) := (if isEof buf =? 0 then line_loop n buf else Ok (None, buf)) in
    match e with
    | Some _ => Ok (e, buf)
    | None => AdvanceCursor (mklb (Lookahead buf) (Cursor buf) (ByteCursor buf) (CurrentLine buf) (Input buf) (Text buf)
                                  (Some (Text buf, 0)) (isEof buf) (LastError buf))
    end.
(* linebuf.go:30-59 *)
Definition newLineBuffer (n : nat) (input : bufscan) : res linebuf :=
  let* (e, buf) := AdvanceLine n (mklb 0 0 0 0 input [] None 0 None) in
  match e with Some AtEof => Ok buf | _ => Ok (set_err buf e) end.

(* linebuf.go:157-171 *)
Definition ReadLineRemainder (n : nat) (buf : linebuf) : res (list Z * linebuf) :=
  let* ended := IsEof buf in
  let* s := (if ended then Ok []
             else
               let* size := line_size buf in
               if ByteCursor buf =? size then Ok (EncodeRune (Lookahead buf))
               else if size <? ByteCursor buf then Ok []
               else let* rest := lift (zslice (Text buf) (ByteCursor buf) size) in Ok (EncodeRune (Lookahead buf) ++ rest)) in
  let* (e, buf) := AdvanceLine n buf in
  Ok (s, set_err buf e).

(* linebuf.go:201-219; predicates are boolean functions *)
Definition matches (n : nat) (predicate : Z -> bool) (buf : linebuf) : res (bool * linebuf) :=
  let* ended := IsEof buf in
  if ended then Ok (false, buf)
  else match LastError buf with
  | Some _ => Ok (false, buf)
  | None =>
      if negb (predicate (Lookahead buf)) then Ok (false, buf)
      else
        let* (e, buf) := (if Lookahead buf =? eolMarker then AdvanceLine n buf else AdvanceCursor buf) in
        match e with
        | Some IOError => Ok (false, set_err buf e)
        | _ => Ok (true, buf)
        end
  end.
