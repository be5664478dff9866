(* NestedRunsSpec.v -- what Reorder should deliver for paragraphs with nested isolates, independent of the code. *)
From Coq Require Import List ZArith Lia Bool Permutation.
From Verif Require Import Base Scrap Reorder ReorderSpec ReorderProofs.
Import ListNotations.
Open Scope Z_scope.

(* ---- well-formed trees: every child is an isolate, from its initiator to its PDI, and lies within its parent;
   apart from their order the parts of a child cover it without gap ---- *)
Definition initiator (f : scrap) : Prop := clz f = cLRI \/ clz f = cRLI.
Definition closed (ch : list scrap) (a b : Z) : Prop := exists f mid e ch', ch = f :: mid ++ [e] /\ initiator f /\ clz e = cPDI /\
  Forall (fun s => isisolate s = false) mid /\ Permutation ch ch' /\ tiles (sl f) ch' (sr e) /\ sl f = a /\ sr e = b.
Fixpoint kids_at (a : Z) (ks : list (list scrap)) (b : Z) : Prop :=
  match ks with
  | [] => a <= b
  | ch :: t => exists x y, closed ch x y /\ a <= x /\ kids_at y t b
  end.
Inductive node : scrap -> Prop :=
  Node : forall s, proper s -> kids_at (sl s) (kids s) (sr s) -> Forall (Forall node) (kids s) -> node s.

(* ---- the order: within each isolate (and the paragraph) the blocks against its direction are reversed; an
   isolate of the other direction than the text around is reversed as a whole, without its delimiters ---- *)
Definition dir_of (ch : list scrap) : bool := match ch with f :: _ => clz f =? cRLI | [] => false end.
Definition turn {A} (l : list A) : list A := match l with f :: (_ :: _) as r => f :: rev (removelast r) ++ [last r f] | _ => l end.
Fixpoint arrange (emb : bool) (s : scrap) : scrap :=
  match s with
  | mks c l r d ks =>
      mks c l r d (map (fun ch => let inner := rev_blocks (opp (dir_of ch)) [] (map (arrange (dir_of ch)) ch) in
                                  if Bool.eqb (dir_of ch) emb then inner else turn inner) ks)
  end.
Definition arranged (emb : bool) (ss : list scrap) : list scrap := rev_blocks (opp emb) [] (map (arrange emb) ss).

(* ---- the positions of a tree with their directions: those of a scrap around its children ---- *)
Definition toward (d : bool) (l r : Z) : list (Z * bool) := map (fun p => (p, d)) (zrange l r).
Fixpoint view (emb : bool) (s : scrap) : list (Z * bool) :=
  match s with
  | mks c l r d ks =>
      (fix go (a : Z) (ks : list (list scrap)) : list (Z * bool) :=
         match ks with
         | [] => toward (dirFromClass (mks c l r d []) emb) a r
         | ch :: t =>
             match ch with
             | [] => go a t
             | f :: _ => toward (dirFromClass (mks c l r d []) emb) a (sl f) ++ flat_map (view (dirFromClass f L2R)) ch ++ go (sr (last ch f)) t
             end
         end) l ks
  end.

(* ---- no isolate begins in the direction of the text before it; at the very beginning none begins left-to-right.
   [d] is the direction before ---- *)
Definition last_dir (d : bool) (v : list (Z * bool)) : bool := snd (last v (0, d)).
Definition begins (v : list (Z * bool)) (d : bool) : bool := match v with [] => false | (_, b) :: _ => Bool.eqb b d end.
Fixpoint fits (emb : bool) (s : scrap) (d : bool) : bool :=
  match s with
  | mks c l r x ks =>
      (fix go (a : Z) (ks : list (list scrap)) (d : bool) : bool :=
         match ks with
         | [] => true
         | ch :: t =>
             match ch with
             | [] => go a t d
             | f :: _ =>
                 let e := dirFromClass f L2R in
                 let before := last_dir d (toward (dirFromClass (mks c l r x []) emb) a (sl f)) in
                 let v := flat_map (view e) ch in
                 (fix all (l : list scrap) (d : bool) : bool :=
                    match l with [] => true | s :: l => fits e s d && all l (last_dir d (view e s)) end) ch L2R
                 && negb (begins v before) && go (sr (last ch f)) t (last_dir before v)
             end
         end) l ks d
  end.
Fixpoint all_fit (emb : bool) (ss : list scrap) (d : bool) : bool :=
  match ss with [] => true | s :: l => fits emb s d && all_fit emb l (last_dir d (view emb s)) end.
