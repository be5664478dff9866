(* ResolverFuel.v -- the bound on the rounds of the resolver does not matter once it suffices. *)
From Coq Require Import List ZArith Lia Bool.
From Verif Require Import Base Scrap Brackets Trie Rules Reorder Scanner Resolver.
Import ListNotations.
Open Scope Z_scope.

Section Mono.
Context (tr : trie) (tab : list (option rule)) {store : Type}
  (findBr : store -> scrap -> option scrap * store) (changeBr : store -> scrap -> store).
Notation pass1_loop := (pass1_loop tr tab findBr changeBr).
Notation parseIRS := (parseIRS tr tab findBr changeBr).
Notation pass2 := (pass2 tr tab findBr changeBr).

(* x is the result of the longer computation y, if it is a result. *)
Definition upto {A} (x y : res A) : Prop := x = NoFuel \/ x = y.

Lemma upto_refl {A} (x : res A) : upto x x.
Proof. right. reflexivity. Qed.
Lemma upto_bind {A B} (x y : res A) (f g : A -> res B) : upto x y -> (forall a, upto (f a) (g a)) -> upto (rbind x f) (rbind y g).
Proof. intros [-> | ->] H; [left; reflexivity|]. destruct y; cbn; [apply H|right; auto|left; auto]. Qed.

Ltac solve_upto IH :=
  first
  [ apply upto_refl
  | apply IH; lia
  | apply upto_bind; [solve_upto IH|intros; solve_upto IH]
  | match goal with
    | |- upto (match ?x with _ => _ end) (match ?x with _ => _ end) => destruct x; solve_upto IH
    | |- upto (let '(_, _) := ?x in _) _ => destruct x; solve_upto IH
    end ].

Lemma pass2_upto : forall n m start p, (n <= m)%nat -> upto (pass2 n start p) (pass2 m start p).
Proof.
  induction n as [|n IH]; intros m start p LE; [left; reflexivity|]. destruct m as [|m]; [lia|].
  cbn [Resolver.pass2]. solve_upto IH.
Qed.

Lemma parse_upto : forall n m, (n <= m)%nat ->
  (forall start walk short p, upto (pass1_loop n start walk short p) (pass1_loop m start walk short p)) /\
  (forall start p, upto (parseIRS n start p) (parseIRS m start p)).
Proof.
  induction n as [|n IH]; intros m LE; [split; left; reflexivity|]. destruct m as [|m]; [lia|].
  assert (IH1 : forall m', (n <= m')%nat -> forall start walk short p, upto (pass1_loop n start walk short p) (pass1_loop m' start walk short p))
    by (intros m' L; apply (IH m' L)).
  assert (IH2 : forall m', (n <= m')%nat -> forall start p, upto (parseIRS n start p) (parseIRS m' start p)) by (intros m' L; apply (IH m' L)).
  clear IH. split.
  - intros start walk short p. cbn [Resolver.pass1_loop]. fold (@Resolver.parseIRS tr tab store findBr changeBr).
    cbv zeta. set (q := fill p). clearbody q. destruct (_ =? _)%nat; [apply upto_refl|].
    destruct walk.
    + match goal with |- upto (match ?x with _ => _ end) _ => destruct x end.
      * apply upto_bind; [apply upto_refl|]. intros. apply IH1. lia.
      * apply upto_bind; [apply upto_refl|]. intros s. destruct (clz s =? cPDI); [apply upto_refl|].
        destruct (isisolate s); [|apply IH1; lia].
        apply upto_bind; [apply IH2; lia|]. intros [[[rhs runlen] ok] p1]. destruct ok.
        -- apply upto_bind; [apply upto_refl|]. intros. apply IH1. lia.
        -- destruct (runlen =? 0)%nat; [apply upto_refl|]. apply upto_bind; [apply upto_refl|]. intros.
           apply upto_bind; [apply upto_refl|]. intros. apply IH1. lia.
    + apply upto_bind; [apply upto_refl|]. intros [ru sh].
      match goal with |- upto (match ?x with _ => _ end) _ => destruct x end.
      * apply upto_bind; [apply upto_refl|]. intros. apply IH1. lia.
      * apply IH1. lia.
  - intros start p. cbn [Resolver.parseIRS]. fold (@Resolver.pass1_loop tr tab store findBr changeBr).
    cbv zeta. destruct (read 3 _) as [[k ok] p1].
    apply upto_bind; [destruct ok; [apply IH1; lia|apply upto_refl]|]. intros [ok' p2].
    apply upto_bind; [destruct (_ || _); [apply pass2_upto; lia|apply upto_refl]|]. intros p3. apply upto_refl.
Qed.

Lemma resolve_upto n m md pipe b : (n <= m)%nat ->
  upto (ResolveLevels tr tab findBr changeBr n md pipe b) (ResolveLevels tr tab findBr changeBr m md pipe b).
Proof.
  intros LE. unfold ResolveLevels. apply upto_bind; [apply (parse_upto n m LE)|]. intros [[[runs k] ok] p]. apply upto_refl.
Qed.
End Mono.

Lemma resolve_enough n m md props upper markup input x : (n <= m)%nat ->
  ResolveParagraph n md props upper markup input = Ok x -> ResolveParagraph m md props upper markup input = Ok x.
Proof.
  intros LE. unfold ResolveParagraph. destruct prepareRulesTrie as [[t tab]| |]; cbn [rbind]; auto.
  destruct (Scan _ _ _ _ _) as [ss| |]; cbn [rbind]; auto. destruct (ScanFinal _ _ _ _ _) as [st| |]; cbn [rbind]; auto.
  intros E. destruct (resolve_upto t tab findBracket changeBracket n m md ss st LE) as [X|X]; congruence.
Qed.
