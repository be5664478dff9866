(* Base.v -- common vocabulary of the model: Go-like indexing and Go integer helpers.
   Go panics are modelled by [None]; a sequence of operations stops at the first panic. *)
From Coq Require Import List ZArith Lia Bool.
Import ListNotations.
Open Scope Z_scope.

(* Length of a Go slice, `len(x)`, as an integer. *)
Definition zlen {A} (l : list A) : Z := Z.of_nat (length l).

(* Go slice indexing `x[i]`: panics (None) outside [0,len). *)
Definition zget {A} (l : list A) (i : Z) : option A :=
  if (0 <=? i) && (i <? zlen l) then nth_error l (Z.to_nat i) else None.

(* Replace position n of a list (helper of [zset]). *)
Fixpoint nset {A} (l : list A) (n : nat) (a : A) : list A :=
  match l, n with
  | [], _ => []
  | _ :: t, O => a :: t
  | x :: t, S n' => x :: nset t n' a
  end.

(* Go slice element assignment `x[i] = a`: panics (None) outside [0,len). *)
Definition zset {A} (l : list A) (i : Z) (a : A) : option (list A) :=
  if (0 <=? i) && (i <? zlen l) then Some (nset l (Z.to_nat i) a) else None.

(* Go slice expression `x[a:b]` for 0 <= a <= b <= len(x); other bounds panic (None). *)
Definition zslice {A} (l : list A) (a b : Z) : option (list A) :=
  if (0 <=? a) && (a <=? b) && (b <=? zlen l)
  then Some (firstn (Z.to_nat (b - a)) (skipn (Z.to_nat a) l)) else None.

(* Sequencing of possibly panicking computations. *)
Definition obind {A B} (x : option A) (f : A -> option B) : option B :=
  match x with Some a => f a | None => None end.
Notation "'do' x <- e ; f" := (obind e (fun x => f))
  (at level 200, x pattern, e at level 100, f at level 200, right associativity).

(* Outcomes: a value, a Go panic, or the model's fuel ran out . *)
Inductive res (A : Type) := Ok (a : A) | Panic | NoFuel.
Arguments Ok {A}. Arguments Panic {A}. Arguments NoFuel {A}.
Definition rbind {A B} (x : res A) (f : A -> res B) : res B :=
  match x with Ok a => f a | Panic => Panic | NoFuel => NoFuel end.
Notation "'let*' x := e 'in' f" := (rbind e (fun x => f))
  (at level 200, x pattern, e at level 100, f at level 200, right associativity).
Definition lift {A} (x : option A) : res A := match x with Some a => Ok a | None => Panic end.

(* ---- lemmas on indexing ---- *)

Lemma zlen_nonneg {A} (l : list A) : 0 <= zlen l.
Proof. unfold zlen; lia. Qed.

Lemma zlen_nil {A} : zlen (@nil A) = 0.
Proof. reflexivity. Qed.

Lemma zlen_cons {A} (a : A) l : zlen (a :: l) = zlen l + 1.
Proof. unfold zlen; simpl length; lia. Qed.

Lemma zlen_app {A} (a b : list A) : zlen (a ++ b) = zlen a + zlen b.
Proof. unfold zlen; rewrite app_length; lia. Qed.

Lemma nset_length {A} (l : list A) n a : length (nset l n a) = length l.
Proof. revert n; induction l; intros [|n]; simpl; auto. Qed.

Lemma nset_same {A} (l : list A) n a : (n < length l)%nat -> nth_error (nset l n a) n = Some a.
Proof. revert n; induction l; intros [|n] H; simpl in *; try lia; auto. apply IHl; lia. Qed.

Lemma nset_other {A} (l : list A) n m a : n <> m -> nth_error (nset l n a) m = nth_error l m.
Proof. revert n m; induction l; intros [|n] [|m] H; simpl; try lia; auto. Qed.

Lemma zset_Some {A} (l : list A) i a : 0 <= i < zlen l -> exists l', zset l i a = Some l'.
Proof. intros H. unfold zset. destruct (Z.leb_spec 0 i), (Z.ltb_spec i (zlen l)); try lia; simpl; eauto. Qed.

Lemma zset_len {A} (l l' : list A) i a : zset l i a = Some l' -> zlen l' = zlen l.
Proof.
  unfold zset. destruct (_ && _); intros H; inversion H. unfold zlen. now rewrite nset_length.
Qed.

Lemma zget_zset {A} (l l' : list A) i j a :
  zset l i a = Some l' -> zget l' j = if j =? i then Some a else zget l j.
Proof.
  intros H. pose proof (zset_len _ _ _ _ H) as HL.
  unfold zset in H. destruct ((0 <=? i) && (i <? zlen l)) eqn:E; inversion H; subst l'; clear H.
  unfold zget. rewrite HL. apply andb_true_iff in E. destruct E as [E1 E2].
  apply Z.leb_le in E1. apply Z.ltb_lt in E2. unfold zlen in *.
  destruct (Z.eqb_spec j i) as [->|N].
  - destruct (Z.leb_spec 0 i), (Z.ltb_spec i (Z.of_nat (length l))); try lia; simpl.
    apply nset_same. lia.
  - destruct (Z.leb_spec 0 j), (Z.ltb_spec j (Z.of_nat (length l))); simpl; auto.
    apply nset_other. lia.
Qed.

Lemma zget_Some_iff {A} (l : list A) i : (exists a, zget l i = Some a) <-> 0 <= i < zlen l.
Proof.
  unfold zget, zlen. split.
  - intros [a H]. destruct (Z.leb_spec 0 i), (Z.ltb_spec i (Z.of_nat (length l))); simpl in H; try discriminate; lia.
  - intros H. destruct (Z.leb_spec 0 i), (Z.ltb_spec i (Z.of_nat (length l))); try lia; simpl.
    destruct (nth_error l (Z.to_nat i)) eqn:E; eauto. apply nth_error_None in E. lia.
Qed.

Lemma zget_None {A} (l : list A) i : ~ (0 <= i < zlen l) -> zget l i = None.
Proof.
  intros H. destruct (zget l i) eqn:E; auto. exfalso. apply H. apply zget_Some_iff. eauto.
Qed.

Lemma zget_ext {A} (l l' : list A) : (forall i, zget l i = zget l' i) -> l = l'.
Proof.
  revert l'; induction l as [|x l IH]; intros [|y l'] H; auto.
  - specialize (H 0). now vm_compute in H.
  - specialize (H 0). now vm_compute in H.
  - f_equal.
    + specialize (H 0). unfold zget, zlen in H. simpl in H. congruence.
    + apply IH. intros i. destruct (Z.ltb_spec i 0).
      { rewrite !zget_None by lia. auto. }
      specialize (H (i + 1)). unfold zget, zlen in *. simpl length in H.
      rewrite !Z2Nat.inj_add in H by lia. change (Z.to_nat 1) with 1%nat in H.
      rewrite !Nat.add_1_r in H. simpl nth_error in H.
      destruct (Z.leb_spec 0 i), (Z.leb_spec 0 (i+1)), (Z.ltb_spec (i + 1) (Z.of_nat (S (length l)))),
        (Z.ltb_spec i (Z.of_nat (length l))), (Z.ltb_spec i (Z.of_nat (length l'))),
        (Z.ltb_spec (i + 1) (Z.of_nat (S (length l')))); simpl in *; try lia; auto.
Qed.

Lemma zget_app {A} (a b : list A) i :
  zget (a ++ b) i = if i <? zlen a then zget a i else zget b (i - zlen a).
Proof.
  unfold zget. rewrite zlen_app. pose proof (zlen_nonneg a). pose proof (zlen_nonneg b).
  unfold zlen in *.
  destruct (Z.ltb_spec i (Z.of_nat (length a))).
  - destruct (Z.leb_spec 0 i); simpl; auto.
    destruct (Z.ltb_spec i (Z.of_nat (length a) + Z.of_nat (length b))); try lia.
    apply nth_error_app1. lia.
  - destruct (Z.leb_spec 0 i); try lia. destruct (Z.leb_spec 0 (i - Z.of_nat (length a))); try lia.
    destruct (Z.ltb_spec i (Z.of_nat (length a) + Z.of_nat (length b))),
      (Z.ltb_spec (i - Z.of_nat (length a)) (Z.of_nat (length b))); simpl; try lia; auto.
    rewrite nth_error_app2 by lia. f_equal. lia.
Qed.

Lemma zget_cons {A} (a : A) b i : 0 <= i -> zget (a :: b) i = if i =? 0 then Some a else zget b (i - 1).
Proof.
  intros Hi. change (a :: b) with ([a] ++ b). rewrite zget_app. change (zlen [a]) with 1.
  destruct (Z.ltb_spec i 1), (Z.eqb_spec i 0); try lia; auto. subst. reflexivity.
Qed.

Lemma zget_firstn {A} (l : list A) n i :
  zget (firstn n l) i = if i <? Z.of_nat n then zget l i else None.
Proof.
  destruct (Z.ltb_spec i (Z.of_nat n)) as [H|H].
  - rewrite <- (firstn_skipn n l) at 2. rewrite zget_app.
    unfold zlen. rewrite firstn_length.
    destruct (Z.ltb_spec i (Z.of_nat (Nat.min n (length l)))); auto.
    assert (length l <= n)%nat by lia. rewrite firstn_all2, skipn_all2 by lia.
    rewrite !zget_None; auto; unfold zlen; simpl; lia.
  - apply zget_None. unfold zlen. rewrite firstn_length. lia.
Qed.

Lemma zget_skipn {A} (l : list A) n i :
  0 <= i -> zget (skipn n l) i = zget l (i + Z.of_nat n).
Proof.
  intros Hi. rewrite <- (firstn_skipn n l) at 2. rewrite zget_app.
  unfold zlen. rewrite firstn_length.
  destruct (Z.ltb_spec (i + Z.of_nat n) (Z.of_nat (Nat.min n (length l)))); try lia.
  destruct (le_lt_dec n (length l)).
  - f_equal. lia.
  - rewrite skipn_all2 by lia. rewrite !zget_None; auto; unfold zlen; simpl; lia.
Qed.
