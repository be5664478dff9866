(* Width.v -- model of uax11/width.go. *)
From Coq Require Import List ZArith Bool.
From Verif Require Import Base RuneWrite Segmenter Utf8 GString.
Import ListNotations.
Open Scope Z_scope.

(* golang.org/x/text/width: Kind *)
Inductive kind := Neutral | EastAsianAmbiguous | EastAsianWide | EastAsianNarrow | EastAsianFullwidth | EastAsianHalfwidth.

(* width.go:138-154: the two resolvers *)
Inductive resolver := ToNarrow | ToWide.
Definition resolveToNarrow (cat : kind) : kind :=
  match cat with EastAsianWide | EastAsianFullwidth => EastAsianWide | _ => EastAsianNarrow end.
Definition resolveToWide (cat : kind) : kind :=
  match cat with Neutral | EastAsianAmbiguous | EastAsianWide | EastAsianFullwidth => EastAsianWide | _ => EastAsianNarrow end.
Definition apply_resolver (r : resolver) : kind -> kind := match r with ToNarrow => resolveToNarrow | ToWide => resolveToWide end.

(* width.go:104-109; a context is an object: the functions return its new value.  Scripts and locales
   are opaque codes. *)
Record context := mkctx { ForceEastAsian : bool; Script : Z; Locale : Z; resolve : option resolver }.

Section Oracles.
(* the code of script Zzzz; the script of a locale (language.Make, Tag.Script); is a script in the
   list of width.go:174-186; does the matcher of width.go:200-209 have any confidence in a locale *)
Context (Zzzz : Z) (script_of : Z -> Z) (asian_script : Z -> bool) (matches : Z -> bool).
(* emoji.EmojisClassForRune(r) >= 0 (the emoji classes are assumed to have been set up, otherwise it
   panics), width.LookupRune(r).Kind() *)
Context (emoji : Z -> bool) (kind_of : Z -> kind).
(* the codes of script "Latn" and locale "en-US" *)
Context (Latn en_US : Z).

(* width.go:127-135 *)
Definition makeLatinContext : context := mkctx false Latn en_US (Some ToNarrow).

(* width.go:168-197 *)
Definition findResolver (lang : Z) (ctx : context) : context :=
  let script := if Script ctx =? Zzzz then script_of lang else Script ctx in
  let r := if asian_script script then ToWide else if matches lang then ToWide else ToNarrow in
  mkctx (ForceEastAsian ctx) script (Locale ctx) (Some r).
(* width.go:158-166 *)
Definition evaluateContext (ctx : context) : context :=
  if ForceEastAsian ctx then mkctx true (Script ctx) (Locale ctx) (Some ToWide)
  else findResolver (Locale ctx) ctx.

(* width.go:31-35, 53-57; None is a nil pointer.  The second component is the caller's context
   afterwards. *)
Definition prepare (c : option context) : context * option context :=
  match c with
  | None => (makeLatinContext, None)
  | Some ctx => match resolve ctx with
                | None => let ctx' := evaluateContext ctx in (ctx', Some ctx')
                | Some _ => (ctx, Some ctx)
                end
  end.

(* width.go:67-81; a nil resolver panics *)
Definition graphemeWidth (g : list Z) (ctx : context) : res Z :=
  let '(r, _) := DecodeRune g in
  if emoji r then Ok 2
  else
    let* f := lift (resolve ctx) in
    match apply_resolver f (kind_of r) with EastAsianWide => Ok 2 | _ => Ok 1 end.

(* width.go:22-37 *)
Definition Width (n : nat) (g : list Z) (c : option context) : res (Z * option context) :=
  if zlen g =? 0 then Ok (0, c)
  else
    let* (start, _) := PositionOfFirstLegalRune n g in
    if negb (start =? 0) then Ok (0, c)
    else
      let '(ctx, c') := prepare c in
      let* w := graphemeWidth g ctx in Ok (w, c').

(* width.go:58-63, from index i on, k rounds *)
Fixpoint width_loop (k : nat) (s : gstring) (i : Z) (ctx : context) (w : Z) : res Z :=
  match k with
  | 0%nat => Ok w
  | S k' => let* nth := Nth s i in let* x := graphemeWidth nth ctx in width_loop k' s (i + 1) ctx (w + x)
  end.
(* width.go:48-64 *)
Definition StringWidth (s : gstring) (c : option context) : res (Z * option context) :=
  let l := Len s in
  if l =? 0 then Ok (0, c)
  else
    let '(ctx, c') := prepare c in
    let* w := width_loop (Z.to_nat l) s 0 ctx 0 in Ok (w, c').
End Oracles.
