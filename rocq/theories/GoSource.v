(* GoSource.v -- what a piece of Go source text means, as far as the generated files need it: the tokens of The
   Go Programming Language Specification (rune literals, identifiers, integers, automatic semicolons) and the
   assignments of range tables.  Written from the language specification, not from the generators. *)
From Coq Require Import List ZArith Bool.
Import ListNotations.
Open Scope Z_scope.

Inductive tok := Id (s : list Z) | Num (v : Z) | Rune (c : Z) | Sym (c : Z) | Semi.

Definition letter (b : Z) : bool := ((65 <=? b) && (b <=? 90)) || ((97 <=? b) && (b <=? 122)) || (b =? 95).
Definition digit (b : Z) : bool := (48 <=? b) && (b <=? 57).
Definition hexdigit (b : Z) : option Z :=
  if digit b then Some (b - 48) else if (65 <=? b) && (b <=? 70) then Some (b - 55) else if (97 <=? b) && (b <=? 102) then Some (b - 87) else None.
(* the longest prefix of characters with p, and the rest *)
Fixpoint span (p : Z -> bool) (s : list Z) : list Z * list Z :=
  match s with
  | b :: t => if p b then let '(x, y) := span p t in (b :: x, y) else ([], s)
  | [] => ([], [])
  end.
(* the value of exactly k hexadecimal digits, and the rest *)
Fixpoint hex (k : nat) (acc : Z) (s : list Z) : option (Z * list Z) :=
  match k, s with
  | 0%nat, _ => Some (acc, s)
  | S k', b :: t => match hexdigit b with Some d => hex k' (acc * 16 + d) t | None => None end
  | _, [] => None
  end.
(* a code point that can stand in a rune literal: not a surrogate *)
Definition scalar (c : Z) : bool := (0 <=? c) && (c <=? 1114111) && negb ((55296 <=? c) && (c <=? 57343)).
(* escapes in rune literals, behind the backslash *)
Definition escape (s : list Z) : option (Z * list Z) :=
  match s with
  | b :: t =>
      if b =? 97 then Some (7, t) else if b =? 98 then Some (8, t) else if b =? 102 then Some (12, t) else if b =? 110 then Some (10, t)
      else if b =? 114 then Some (13, t) else if b =? 116 then Some (9, t) else if b =? 118 then Some (11, t)
      else if (b =? 92) || (b =? 39) then Some (b, t)
      else if b =? 120 then hex 2 0 t
      else if b =? 117 then match hex 4 0 t with Some (v, r) => if scalar v then Some (v, r) else None | None => None end
      else if b =? 85 then match hex 8 0 t with Some (v, r) => if scalar v then Some (v, r) else None | None => None end
      else None
  | [] => None
  end.
(* a rune literal, behind the opening quote; only ASCII characters may stand for themselves here *)
Definition rune_literal (s : list Z) : option (Z * list Z) :=
  match s with
  | b :: t =>
      match (if b =? 92 then escape t else if (b =? 39) || (b =? 10) || (128 <=? b) then None else Some (b, t)) with
      | Some (v, q :: r) => if q =? 39 then Some (v, r) else None
      | _ => None
      end
  | [] => None
  end.
(* the rest of a line *)
Fixpoint line_end (s : list Z) : list Z := match s with b :: t => if b =? 10 then s else line_end t | [] => [] end.

(* One token (or white space, or a comment).  [last]: the last token on the line so far is one after which a
   newline is a semicolon. *)
Definition lex1 (last : bool) (s : list Z) : option (list tok * bool * list Z) :=
  match s with
  | [] => None
  | b :: t =>
      if b =? 10 then Some (if last then [Semi] else [], false, t)
      else if (b =? 32) || (b =? 9) || (b =? 13) then Some ([], last, t)
      else if letter b then let '(x, r) := span (fun c => letter c || digit c) t in Some ([Id (b :: x)], true, r)
      else if digit b then let '(x, r) := span digit t in Some ([Num (fold_left (fun v d => v * 10 + (d - 48)) (b :: x) 0)], true, r)
      else if b =? 39 then match rune_literal t with Some (c, r) => Some ([Rune c], true, r) | None => None end
      else if (b =? 47) && match t with c :: _ => c =? 47 | [] => false end then Some ([], last, line_end t)
      else if (b =? 41) || (b =? 93) || (b =? 125) then Some ([Sym b], true, t)
      else if existsb (Z.eqb b) [40; 91; 123; 61; 46; 44; 43; 42] then Some ([Sym b], false, t)
      else None
  end.
Fixpoint lexn (n : nat) (last : bool) (s : list Z) : option (list tok) :=
  match s with
  | [] => Some []
  | _ =>
      match n with
      | 0%nat => None
      | S n' => match lex1 last s with
                | Some (ts, last', r) => option_map (app ts) (lexn n' last' r)
                | None => None
                end
      end
  end.
(* the tokens of a text: every token takes at least one character *)
Definition tokens (last : bool) (s : list Z) : option (list tok) := lexn (length s) last s.

(* ---- the function that sets up the tables ---- *)
Fixpoint eqb_list (a b : list Z) : bool :=
  match a, b with [], [] => true | x :: s, y :: t => (x =? y) && eqb_list s t | _, _ => false end.
(* the words the generated functions use *)
Definition w_func : list Z := [102; 117; 110; 99].
Definition w_rangetable : list Z := [114; 97; 110; 103; 101; 116; 97; 98; 108; 101].
Definition w_New : list Z := [78; 101; 119].
Definition w_int : list Z := [105; 110; 116].
Definition w_make : list Z := [109; 97; 107; 101].
Definition is_id (w : list Z) (t : tok) : bool := match t with Id s => eqb_list w s | _ => false end.
Definition is_sym (c : Z) (t : tok) : bool := match t with Sym d => c =? d | _ => false end.

(* the arguments of a call up to its closing parenthesis: runes separated by commas *)
Fixpoint args (ts : list tok) : option (list Z * list tok) :=
  match ts with
  | Rune c :: Sym 44 :: r => match args r with Some (cs, r') => Some (c :: cs, r') | None => None end
  | Rune c :: Sym 41 :: r => Some ([c], r)
  | _ => None
  end.
Definition call_args (ts : list tok) : option (list Z * list tok) :=
  match ts with Sym 41 :: r => Some ([], r) | _ => args ts end.
(* the first value bound to a name *)
Fixpoint value (env : list (list Z * list Z)) (x : list Z) : option (list Z) :=
  match env with [] => None | (y, v) :: t => if eqb_list y x then Some v else value t x end.

(* Statements  x = rangetable.New(runes)  and  table[int(c)] = x  up to the closing brace.  The state: the code
   points of each variable and the code points of each place in the table; the newest binding comes first.
   A variable that has no value yet cannot be stored. *)
Fixpoint statements (n : nat) (table : list Z) (vars places : list (list Z * list Z)) (ts : list tok) : option (list (list Z * list Z) * list (list Z * list Z)) :=
  match n with
  | 0%nat => None
  | S n' =>
      match ts with
      | Sym 125 :: Semi :: [] => Some (vars, places)
      | Id x :: Sym 61 :: Id a :: Sym 46 :: Id b :: Sym 40 :: r =>
          if eqb_list a w_rangetable && eqb_list b w_New then
            match call_args r with
            | Some (cs, Semi :: r') => statements n' table ((x, cs) :: vars) places r'
            | _ => None
            end
          else None
      | Id t :: Sym 91 :: Id i :: Sym 40 :: Id c :: Sym 41 :: Sym 93 :: Sym 61 :: Id x :: Semi :: r =>
          if eqb_list t table && eqb_list i w_int then
            match value vars x with Some v => statements n' table vars ((c, v) :: places) r | None => None end
          else None
      | _ => None
      end
  end.
(* func name() { table = make( ... ); statements } *)
Definition setup_function (ts : list tok) : option (list Z * (list (list Z * list Z) * list (list Z * list Z))) :=
  match ts with
  | Id f :: Id name :: Sym 40 :: Sym 41 :: Sym 123 ::
    Id table :: Sym 61 :: Id m :: Sym 40 :: Sym 91 :: Sym 93 :: Sym 42 :: Id _ :: Sym 46 :: Id _ :: Sym 44 :: Id i :: Sym 40 :: Id _ :: Sym 41 :: Sym 43 :: Num 1 :: Sym 41 :: Semi :: r =>
      if eqb_list f w_func && eqb_list m w_make && eqb_list i w_int then option_map (pair name) (statements (length r) table [] [] r) else None
  | _ => None
  end.
(* the meaning of a text: the name of the function, what the variables and the places in the table hold afterwards *)
Definition program (s : list Z) : option (list Z * (list (list Z * list Z) * list (list Z * list Z))) :=
  match tokens false s with Some ts => setup_function ts | None => None end.
