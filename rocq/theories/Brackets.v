(* Brackets.v -- bracket pair handling of the bidi scanner.
   Models bidi/brackets.go and bidi/bracketpairs.go.  One handler serves one isolating run sequence;
   the chaining of handlers (field next) belongs to the scanner. *)
From Coq Require Import List ZArith Lia Bool.
From Verif Require Import Base Scrap.
Import ListNotations.
Open Scope Z_scope.

(* BD16MaxNesting: brackets.go:9. *)
Definition BD16MaxNesting : Z := 63.

(* uax9BracketPairs: bracketpairs.go:11-71, pairs (opening, closing). *)
Definition uax9BracketPairs : list (Z * Z) :=
  [
   (40,41); (91,93); (123,125); (3898,3899); (3900,3901); (5787,5788); (8261,8262);
   (8317,8318); (8333,8334); (8968,8969); (8970,8971); (9001,9002); (10088,10089);
   (10090,10091); (10092,10093); (10094,10095); (10096,10097); (10098,10099); (10100,10101);
   (10181,10182); (10214,10215); (10216,10217); (10218,10219); (10220,10221); (10222,10223);
   (10627,10628); (10629,10630); (10631,10632); (10633,10634); (10635,10636); (10637,10640);
   (10639,10638); (10641,10642); (10643,10644); (10645,10646); (10647,10648); (10712,10713);
   (10714,10715); (10748,10749); (11810,11811); (11812,11813); (11814,11815); (11816,11817);
   (12296,12297); (12298,12299); (12300,12301); (12302,12303); (12304,12305); (12308,12309);
   (12310,12311); (12312,12313); (12314,12315); (65113,65114); (65115,65116); (65117,65118);
   (65288,65289); (65339,65341); (65371,65373); (65375,65376); (65378,65379)].

(* brktpos: brackets.go:78-82. *)
Record brktpos := mkbp { bp_open : scrap; bp_pair : Z * Z }.

(* pairing: brackets.go:86-89. *)
Record pairing := mkpg { pg_brk : brktpos; pg_close : scrap }.
Definition pg_open (p : pairing) : scrap := bp_open (pg_brk p).

(* bracketPairHandler: brackets.go:67-74, without the lock and the chaining.
   The top of the bracket stack is at the end of the list, as in the Go slice. *)
Record handler := mkh { bstack : list brktpos; pairs : list pairing }.

(* makeBracketPairHandler: brackets.go:91-101. *)
Definition new_handler : handler := mkh [] [].

(* The loop over uax9BracketPairs in push: brackets.go:144-149. *)
Fixpoint find_opening (r : Z) (tbl : list (Z * Z)) : option (Z * Z) :=
  match tbl with
  | [] => None
  | p :: t => if fst p =? r then Some p else find_opening r t
  end.

(* bs.push: brackets.go:135-152. *)
Definition bs_push (bs : list brktpos) (r : Z) (s : scrap) : bool * list brktpos :=
  if BD16MaxNesting <=? zlen bs then (false, bs)
  else if negb (clz s =? cBRACKO) then (false, bs)
  else match find_opening r uax9BracketPairs with
       | Some p => (true, bs ++ [mkbp s p])
       | None => (false, bs)
       end.

(* The loop of popWith, where [n] is i+1: brackets.go:161-169. *)
Fixpoint pop_loop (bs : list brktpos) (b : Z) (n : nat) : option (brktpos * list brktpos) :=
  match n with
  | O => None
  | S i =>
      match nth_error bs i with
      | Some x => if snd (bp_pair x) =? b then Some (x, firstn i bs) else pop_loop bs b i
      | None => None
      end
  end.

(* bs.popWith: brackets.go:156-171; None stands for the result (false, _, bs). *)
Definition pop_with (bs : list brktpos) (b : Z) : option (brktpos * list brktpos) :=
  pop_loop bs b (length bs).

(* bph.pushOpening: brackets.go:108-112. *)
Definition push_opening (h : handler) (r : Z) (s : scrap) : bool * handler :=
  let (ok, bs) := bs_push (bstack h) r s in (ok, mkh bs (pairs h)).

(* The loop computing inx: brackets.go:126-130. *)
Fixpoint find_inx (l : Z) (ps : list pairing) (i inx : nat) : nat :=
  match ps with
  | [] => inx
  | p :: t => find_inx l t (S i) (if l <? sl (pg_open p) then i else inx)
  end.

(* bph.findPair: brackets.go:114-133 (the position it returns is always 0). *)
Definition find_pair (h : handler) (r : Z) (s : scrap) : bool * handler :=
  match pop_with (bstack h) r with
  | None => (false, h)
  | Some (b, bs) =>
      let np := mkpg b s in
      let inx := find_inx (sl (bp_open b)) (pairs h) 0 0 in
      (true, mkh bs (firstn inx (pairs h) ++ np :: skipn inx (pairs h)))
  end.

(* prepareRuleBD16: scanner.go:266-285: the effect of one scanned character on the handler. *)
Definition bd16_step (h : handler) (e : Z * scrap) : handler :=
  let (r, s) := e in
  if negb (isbracket s) then h
  else if clz s =? cBRACKO then snd (push_opening h r s) else snd (find_pair h r s).

(* A run of the handler over the characters of an isolating run sequence. *)
Definition bd16_run (h : handler) (es : list (Z * scrap)) : handler := fold_left bd16_step es h.

(* bph.FindBracketPairing: brackets.go:174-189. *)
Fixpoint find_pairing (ps : list pairing) (s : scrap) : option pairing :=
  match ps with
  | [] => None
  | p :: t =>
      if clz s =? cBRACKO
      then if sl (pg_open p) =? sl s then Some p else find_pairing t s
      else if sl (pg_close p) =? sl s then Some p else find_pairing t s
  end.

(* bph.changeOpeningBracketClass: brackets.go:194-202. *)
Definition change_opening (ps : list pairing) (s : scrap) : list pairing :=
  map (fun p => if sl (pg_open p) =? sl s
                then mkpg (mkbp (with_clz (pg_open p) (clz s)) (bp_pair (pg_brk p))) (pg_close p)
                else p) ps.

(* bph.UpdateClosingBrackets: brackets.go:209-220.  The loop variable is a copy of the list
   element, hence the list is not changed. *)
Definition update_closing (ps : list pairing) (s : scrap) : list pairing := ps.
