(* Recognizer.v -- model of uax.Recognizer (automata.go:54-179).
   A state function (NfaStateFn) is named by a label of type [L]; [step] interprets a label: it may
   change state shared with other recognisers (type G, e.g. the breaker stored in UserData) and the
   recogniser's own fields, and returns the next label or nil (None). *)
From Coq Require Import List ZArith Lia Bool.
Import ListNotations.
Open Scope Z_scope.

Section Recognizer.
Context {L : Type}.

(* automata.go:54-60 (UserData: see type G) *)
Record rec := mkrec { expect : Z; matchLen : Z; penalties : list Z; nextStep : option L }.

(* automata.go:66-71 *)
Definition NewRecognizer (c : Z) (l : L) : rec := mkrec c 0 [] (Some l).

(* automata.go:138-145 *)
Definition Done (r : rec) : bool := match nextStep r with None => true | Some _ => false end.
Definition MatchLength (r : rec) : Z := matchLen r.

(* automata.go:167-170: returns nil *)
Definition DoAbort (r : rec) : rec * option L := (mkrec (expect r) 0 (penalties r) (nextStep r), None).
(* automata.go:174-179: returns nil *)
Definition DoAccept (r : rec) (ps : list Z) : rec * option L :=
  (mkrec (expect r) (matchLen r + 1) ps (nextStep r), None).
(* `rec.MatchLen++; return l` (idiom of the rules) and `return l` *)
Definition Proceed (r : rec) (l : L) : rec * option L :=
  (mkrec (expect r) (matchLen r + 1) (penalties r) (nextStep r), Some l).
Definition Stay (r : rec) (l : L) : rec * option L := (r, Some l).

Context {G : Type} (step : L -> G -> rec -> Z -> Z -> G * (rec * option L)).

(* automata.go:148-162 *)
Definition RuneEvent (rune cls : Z) (g : G) (r : rec) : G * rec * list Z :=
  let '(g', r') := match nextStep r with
                   | Some l => let '(g1, (r1, n)) := step l g r rune cls in
                               (g1, mkrec (expect r1) (matchLen r1) (penalties r1) n)
                   | None => (g, r)
                   end in
  (g', r', if Done r' && (matchLen r' >? 0) then penalties r' else []).

(* automata.go:99-114: the pool hands out recognisers that were cleared on release; only UserData
   survives, and every breaker overwrites it. *)
Definition release (r : rec) : rec := mkrec 0 0 [] None.
Definition NewPooledRecognizer (pooled : rec) (c : Z) (l : L) : rec :=
  mkrec c (matchLen pooled) (penalties pooled) (Some l).

(* A rule keeps the contract of automata.go:38-53: a non-negative match length, and nil only as
   the result of DoAbort or DoAccept. *)
Definition well_behaved : Prop :=
  forall l g r rune cls g' r' n, 0 <= matchLen r -> step l g r rune cls = (g', (r', n)) ->
    0 <= matchLen r' /\
    (n = None -> (exists r0, (r', n) = DoAbort r0) \/ (exists r0 ps, 0 <= matchLen r0 /\ (r', n) = DoAccept r0 ps)).
End Recognizer.
Arguments rec : clear implicits.
