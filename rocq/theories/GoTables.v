(* GoTables.v -- what a Go source file of range tables means: tokens, declarations, the tables of the package.
   Written from The Go Programming Language Specification, not from the generator.  Only ASCII outside of
   comments; decimal and hexadecimal integers; strings without escapes; no /* */ comments. *)
From Coq Require Import List ZArith Bool.
From Verif Require Import RangeTable.
From Verif Require GoSource.
Import ListNotations.
Open Scope Z_scope.

Inductive gtok := GId (s : list Z) | GInt (v : Z) | GStr (s : list Z) | GSym (c : Z) | GSemi.
Notation letter := GoSource.letter.
Notation digit := GoSource.digit.
Notation same := GoSource.eqb_list.

(* break default func interface select case defer go map struct chan else goto package switch const fallthrough
   if range type continue for import return var *)
Definition keywords : list (list Z) :=
  [[98;114;101;97;107]; [100;101;102;97;117;108;116]; [102;117;110;99]; [105;110;116;101;114;102;97;99;101]; [115;101;108;101;99;116];
   [99;97;115;101]; [100;101;102;101;114]; [103;111]; [109;97;112]; [115;116;114;117;99;116]; [99;104;97;110]; [101;108;115;101]; [103;111;116;111];
   [112;97;99;107;97;103;101]; [115;119;105;116;99;104]; [99;111;110;115;116]; [102;97;108;108;116;104;114;111;117;103;104]; [105;102];
   [114;97;110;103;101]; [116;121;112;101]; [99;111;110;116;105;110;117;101]; [102;111;114]; [105;109;112;111;114;116]; [114;101;116;117;114;110]; [118;97;114]].
Definition keyword (x : list Z) : bool := existsb (same x) keywords.
(* newlines behind these keywords end a statement *)
Definition ending : list (list Z) :=
  [[98;114;101;97;107]; [99;111;110;116;105;110;117;101]; [102;97;108;108;116;104;114;111;117;103;104]; [114;101;116;117;114;110]].
Definition ends (x : list Z) : bool := negb (keyword x) || existsb (same x) ending.

(* ---- tokens: an automaton, character by character ---- *)
(* [last]: a newline is a semicolon *)
Inductive lstate := Start (last : bool) | InId (x : list Z) | Zero | InNum (v : Z) | HexStart | InHex (v : Z) | InStr (x : list Z) | Slash (last : bool) | Comment (last : bool).
Definition start (last : bool) (c : Z) : option (lstate * list gtok) :=
  if c =? 10 then Some (Start false, if last then [GSemi] else [])
  else if (c =? 32) || (c =? 9) || (c =? 13) then Some (Start last, [])
  else if letter c then Some (InId [c], [])
  else if c =? 48 then Some (Zero, [])
  else if digit c then Some (InNum (c - 48), [])
  else if c =? 34 then Some (InStr [], [])
  else if c =? 47 then Some (Slash last, [])
  else if (c =? 41) || (c =? 93) || (c =? 125) then Some (Start true, [GSym c])
  else if existsb (Z.eqb c) [40; 91; 123; 61; 46; 44; 38; 58; 42] then Some (Start false, [GSym c])
  else if c =? 59 then Some (Start false, [GSemi])
  else None.
Definition emit (t : gtok) (r : option (lstate * list gtok)) : option (lstate * list gtok) :=
  match r with Some (st, ts) => Some (st, t :: ts) | None => None end.
Definition step (st : lstate) (c : Z) : option (lstate * list gtok) :=
  match st with
  | Start last => start last c
  | InId x => if letter c || digit c then Some (InId (x ++ [c]), []) else emit (GId x) (start (ends x) c)
  | Zero => if (c =? 120) || (c =? 88) then Some (HexStart, []) else if letter c || digit c then None else emit (GInt 0) (start true c)
  | InNum v => if digit c then Some (InNum (v * 10 + (c - 48)), []) else if letter c then None else emit (GInt v) (start true c)
  | HexStart => match GoSource.hexdigit c with Some d => Some (InHex d, []) | None => None end
  | InHex v => match GoSource.hexdigit c with
               | Some d => Some (InHex (v * 16 + d), [])
               | None => if letter c then None else emit (GInt v) (start true c)
               end
  | InStr x => if c =? 34 then Some (Start true, [GStr x]) else if (c =? 92) || (c =? 10) then None else Some (InStr (x ++ [c]), [])
  | Slash last => if c =? 47 then Some (Comment last, []) else None
  | Comment last => if c =? 10 then Some (Start false, if last then [GSemi] else []) else Some (Comment last, [])
  end.
Fixpoint lex (st : lstate) (s : list Z) : option (lstate * list gtok) :=
  match s with
  | [] => Some (st, [])
  | c :: t =>
      match step st c with
      | Some (st', ts) => match lex st' t with Some (st'', us) => Some (st'', ts ++ us) | None => None end
      | None => None
      end
  end.
Definition semi (b : bool) : list gtok := if b then [GSemi] else [].
Definition finish (st : lstate) : option (list gtok) :=
  match st with
  | Start last | Comment last => Some (semi last)
  | InId x => Some (GId x :: semi (ends x))
  | Zero => Some [GInt 0; GSemi]
  | InNum v | InHex v => Some [GInt v; GSemi]
  | HexStart | InStr _ | Slash _ => None
  end.
Definition gtokens (s : list Z) : option (list gtok) :=
  match lex (Start false) s with
  | Some (st, ts) => match finish st with Some us => Some (ts ++ us) | None => None end
  | None => None
  end.

(* ---- declarations ---- *)
Definition w_package : list Z := [112;97;99;107;97;103;101].
Definition w_import : list Z := [105;109;112;111;114;116].
Definition w_var : list Z := [118;97;114].
Definition w_unicode : list Z := [117;110;105;99;111;100;101].
Definition w_RangeTable : list Z := [82;97;110;103;101;84;97;98;108;101].
Definition w_Range16 : list Z := [82;97;110;103;101;49;54].
Definition w_Range32 : list Z := [82;97;110;103;101;51;50].
Definition w_R16 : list Z := [82;49;54].
Definition w_R32 : list Z := [82;51;50].
Definition w_LatinOffset : list Z := [76;97;116;105;110;79;102;102;115;101;116].
(* an identifier that may be declared; the blank identifier is left out *)
Definition name (x : list Z) : bool := negb (keyword x) && negb (same x [95]).

(* { lo, hi, stride } elements; constants must fit the type of the fields *)
Fixpoint entries (n : nat) (lim : Z) (ts : list gtok) : option (list entry * list gtok) :=
  match n with
  | O => None
  | S n =>
      match ts with
      | GSym 125 :: r => Some ([], r)
      | GSym 123 :: GInt a :: GSym 44 :: GInt b :: GSym 44 :: GInt s :: GSym 125 :: r =>
          if (a <? lim) && (b <? lim) && (s <? lim) then
            match r with
            | GSym 44 :: r => match entries n lim r with Some (es, r) => Some ((a, b, s) :: es, r) | None => None end
            | GSym 125 :: r => Some ([(a, b, s)], r)
            | _ => None
            end
          else None
      | _ => None
      end
  end.
(* the fields of a unicode.RangeTable that have been given; each at most once *)
Record fields := mkf { f16 : option (list entry); f32 : option (list entry); flat : option Z }.
Definition or_nil (x : option (list entry)) : list entry := match x with Some l => l | None => [] end.
Definition table_of_fields (f : fields) : rtable := mktab (or_nil (f16 f)) (or_nil (f32 f)) (match flat f with Some v => v | None => 0 end).
Definition field (n : nat) (f : fields) (ts : list gtok) : option (fields * list gtok) :=
  match ts with
  | GId x :: GSym 58 :: GSym 91 :: GSym 93 :: GId u :: GSym 46 :: GId t :: GSym 123 :: r =>
      if negb (same u w_unicode) then None
      else if same x w_R16 && same t w_Range16 then
        match f16 f, entries n (2 ^ 16) r with None, Some (es, r) => Some (mkf (Some es) (f32 f) (flat f), r) | _, _ => None end
      else if same x w_R32 && same t w_Range32 then
        match f32 f, entries n (2 ^ 32) r with None, Some (es, r) => Some (mkf (f16 f) (Some es) (flat f), r) | _, _ => None end
      else None
  | GId x :: GSym 58 :: GInt v :: r =>
      if same x w_LatinOffset && (v <? 2 ^ 63) then match flat f with None => Some (mkf (f16 f) (f32 f) (Some v), r) | _ => None end else None
  | _ => None
  end.
Fixpoint literal (n : nat) (f : fields) (ts : list gtok) : option (rtable * list gtok) :=
  match n with
  | O => None
  | S n =>
      match ts with
      | GSym 125 :: r => Some (table_of_fields f, r)
      | _ =>
          match field n f ts with
          | Some (f, GSym 44 :: r) => literal n f r
          | Some (f, GSym 125 :: r) => Some (table_of_fields f, r)
          | _ => None
          end
      end
  end.
(* x *unicode.RangeTable = y; ... ) *)
Fixpoint var_section (ts : list gtok) : option (list (list Z * list Z) * list gtok) :=
  match ts with
  | GSym 41 :: r => Some ([], r)
  | GId x :: GSym 42 :: GId u :: GSym 46 :: GId t :: GSym 61 :: GId y :: GSemi :: r =>
      if name x && name y && same u w_unicode && same t w_RangeTable then
        match var_section r with Some (vs, r) => Some ((x, y) :: vs, r) | None => None end
      else None
  | _ => None
  end.
(* tables declared, variables declared with the table they point to *)
Fixpoint decls (n : nat) (ts : list gtok) : option (list (list Z * rtable) * list (list Z * list Z)) :=
  match n with
  | O => None
  | S n =>
      match ts with
      | [] => Some ([], [])
      | GId v :: GId x :: GSym 61 :: GSym 38 :: GId u :: GSym 46 :: GId t :: GSym 123 :: r =>
          if same v w_var && name x && same u w_unicode && same t w_RangeTable then
            match literal n (mkf None None None) r with
            | Some (tab, GSemi :: r) => match decls n r with Some (ds, vs) => Some ((x, tab) :: ds, vs) | None => None end
            | _ => None
            end
          else None
      | GId v :: GSym 40 :: r =>
          if same v w_var then
            match var_section r with
            | Some (vs, GSemi :: r) => match decls n r with Some (ds, ws) => Some (ds, vs ++ ws) | None => None end
            | _ => None
            end
          else None
      | _ => None
      end
  end.
Fixpoint get (env : list (list Z * rtable)) (x : list Z) : option rtable :=
  match env with [] => None | (y, t) :: r => if same y x then Some t else get r x end.
Fixpoint distinct (xs : list (list Z)) : bool := match xs with [] => true | x :: r => negb (existsb (same x) r) && distinct r end.
Fixpoint resolve (ds : list (list Z * rtable)) (vs : list (list Z * list Z)) : option (list (list Z * rtable)) :=
  match vs with
  | [] => Some []
  | (x, y) :: r => match get ds y, resolve ds r with Some t, Some e => Some ((x, t) :: e) | _, _ => None end
  end.
(* The package and its variables.  No name may be declared twice, nor be that of the import; the import must be
   used. *)
Definition source (s : list Z) : option (list Z * list (list Z * rtable)) :=
  match gtokens s with
  | Some (GId p :: GId pkg :: GSemi :: GId i :: GStr u :: GSemi :: r) =>
      if same p w_package && name pkg && same i w_import && same u w_unicode then
        match decls (S (length r)) r with
        | Some (ds, vs) =>
            match ds, vs with
            | [], [] => None
            | _, _ =>
                if distinct (w_unicode :: map fst ds ++ map fst vs)
                then match resolve ds vs with Some e => Some (pkg, ds ++ e) | None => None end else None
            end
        | None => None
        end
      else None
  | _ => None
  end.
