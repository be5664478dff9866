(* SegSpec.v -- specification of the segmenter, independent of its queue and control flow:
   penalties are sums over a matrix of breaker outputs; a text is cut after every position whose
   total penalty permits a break. *)
From Coq Require Import List ZArith Lia Bool.
From Verif Require Import Segmenter.
Import ListNotations.
Open Scope Z_scope.

Section Spec.
Context {B : Type} (bstep : B -> Z -> B * Z * list Z).

(* What one breaker says for one rune: longest active match and penalties, looking back from the
   newest rune. *)
Definition answer : Type := Z * list Z.

(* All breakers see a rune. *)
Definition bs_next (bs : list B) (r : Z) : list B := map (fun b => fst (fst (bstep b r))) bs.
Definition bs_out (bs : list B) (r : Z) : list answer := map (fun b => (snd (fst (bstep b r)), snd (bstep b r))) bs.

(* Row k of the matrix: what all breakers say when rune k arrives. *)
Fixpoint matrix (bs : list B) (rs : list Z) : list (list answer) :=
  match rs with
  | [] => []
  | r :: t => bs_out bs r :: matrix (bs_next bs r) t
  end.

(* The longest of the active matches. *)
Definition longest (o : list answer) : Z := fold_right Z.max 0 (map fst o).
(* Penalty of the primary breaker / sum of the secondary breakers at look-back distance j. *)
Definition prim (o : list answer) (j : nat) : Z := match o with [] => 0 | a :: _ => nth j (snd a) 0 end.
Definition sec (o : list answer) (j : nat) : Z := fold_right Z.add 0 (map (fun a : answer => nth j (snd a) 0) (tl o)).

(* Sum over rows k >= i of the entry that falls on position i. *)
Definition column (f : list answer -> nat -> Z) (m : list (list answer)) (i : nat) : Z :=
  fold_right Z.add 0 (map (fun k => f (nth k m []) (k - i)%nat) (seq i (length m - i))).

(* The text as atoms: every rune starts with penalties (0,0), the end of text is an unbreakable 0. *)
Definition inputs (rs : list Z) : list atom := map (fun r => mkatom r 0 0) rs ++ [eotAtom].

(* Position i with its penalties after the rows m have been read. *)
Definition eff (ins : list atom) (m : list (list answer)) (i : nat) : atom :=
  let a := nth i ins zeroAtom in
  mkatom (ar a) (ap0 a + column prim m i) (ap1 a + column sec m i).

(* All positions read so far. *)
Definition effs (ins : list atom) (m : list (list answer)) : list atom :=
  map (eff ins m) (seq 0 (length m)).

(* Positions decided after the first k rows: those before the longest active match. *)
Definition settled (m : list (list answer)) (k : nat) : Z :=
  Z.of_nat k - longest (nth (k - 1) m []).

(* The furthest position decided by the end. *)
Definition reach (m : list (list answer)) : nat :=
  fold_right Nat.max 0%nat (map (fun k => Z.to_nat (settled m k)) (seq 1 (length m))).

(* Cut after every position that passes the test; an open rest is not delivered. *)
Fixpoint cut (test : atom -> bool) (l : list atom) (open : list Z) : list (list Z * (Z * Z)) :=
  match l with
  | [] => []
  | a :: t => if test a then (open ++ [ar a], (ap0 a, ap1 a)) :: cut test t []
              else cut test t (open ++ [ar a])
  end.

(* The positions at which a break is permitted: below the infinite penalty 10000 and, unless the
   break-on-zero setting is on, not zero.  With one breaker only the primary penalty counts. *)
Definition permits (zero : bool) (p : Z) : bool := (p <? 10000) && (zero || negb (p =? 0)).
Definition permitted (z : bool * bool) (multi : bool) (a : atom) : bool :=
  permits (fst z) (ap0 a) || (multi && permits (snd z) (ap1 a)).

(* Contract of the breakers on a text: a verdict, once the position is settled, is not changed by
   later rows (conforming) / not even the penalties change (strictly conforming). *)
Definition conforming (test : atom -> bool) (ins : list atom) (m : list (list answer)) : Prop :=
  forall k i, (1 <= k <= length m)%nat -> Z.of_nat i < settled m k ->
    test (eff ins (firstn k m) i) = test (eff ins m i).
Definition strictly_conforming (ins : list atom) (m : list (list answer)) : Prop :=
  forall k i, (1 <= k <= length m)%nat -> Z.of_nat i < settled m k ->
    eff ins (firstn k m) i = eff ins m i.
End Spec.

(* ---- the contract of one breaker on one text ---- *)
Section Contract.
Context {B : Type} (bstep : B -> Z -> B * Z * list Z).
(* what breaker b says for every rune *)
Fixpoint answers (b : B) (rs : list Z) : list answer :=
  match rs with
  | [] => []
  | r :: t => (snd (fst (bstep b r)), snd (bstep b r)) :: answers (fst (fst (bstep b r))) t
  end.
(* The announced longest active match grows by at most one per rune, and penalties never reach
   further back than the match announced with the rune before. *)
Definition breaker_obeys (b : B) (rs : list Z) : Prop :=
  forall j, (S j < length rs)%nat ->
    let a := nth j (answers b rs) (0, []) in let a' := nth (S j) (answers b rs) (0, []) in
    fst a' <= Z.max 0 (fst a) + 1 /\ (forall i, Z.max 0 (fst a) < Z.of_nat i -> nth i (snd a') 0 = 0).
End Contract.
(* The end-of-text marker is not made breakable: the last row does not lower its penalties. *)
Definition eot_safe (m : list (list answer)) : Prop := 0 <= prim (last m []) 0 /\ 0 <= sec (last m []) 0.

(* Break positions (counted in runes from k) with their primary and secondary penalty. *)
Fixpoint ends (k : nat) (outs : list (list Z * (Z * Z))) : list (nat * (Z * Z)) :=
  match outs with [] => [] | (w, p) :: r => ((k + length w)%nat, p) :: ends (k + length w) r end.
