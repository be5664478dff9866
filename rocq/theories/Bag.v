(* Bag.v -- publishing to recognisers whose order does not matter. *)
From Coq Require Import List ZArith Lia Bool Permutation.
From Verif Require Import Base PrioQ PrioQProofs Recognizer.
Import ListNotations.
Open Scope Z_scope.

Definition sum_pens (pp : list (list Z)) : list Z := fold_left add_pens pp [].
Lemma add_pens_nil : forall ps, add_pens [] ps = ps.
Proof. induction ps; simpl; congruence. Qed.
Lemma fold_pens : forall pp tot, (forall j, nth j (fold_left add_pens pp tot) 0 = nth j tot 0 + sum_at pp j) /\
  length (fold_left add_pens pp tot) = Nat.max (length tot) (max_len pp).
Proof.
  induction pp as [|p pp IH]; intros tot.
  - split; [intros j; unfold sum_at; simpl; lia|unfold max_len; simpl; lia].
  - cbn [fold_left]. destruct (IH (add_pens tot p)) as [A B]. split.
    + intros j. rewrite A, add_pens_nth. unfold sum_at. simpl. lia.
    + rewrite B, add_pens_len. unfold max_len. simpl. lia.
Qed.

Section Bag.
Context {Sub G : Type} (done : Sub -> bool) (ev : G -> Sub -> G * Sub * list Z) (mlen : Sub -> Z).

Lemma filter_perm (f : Sub -> bool) l l' : Permutation l l' -> Permutation (filter f l) (filter f l').
Proof.
  intros Hp. induction Hp; simpl; auto.
  - destruct (f x); auto.
  - destruct (f x), (f y); auto. apply perm_swap.
  - etransitivity; eauto.
Qed.

(* one publication, seen as a step on the bag l *)
Lemma bag_round p l g g' ev1 : Inv done p -> alive done l -> Permutation (q p) l ->
  (forall l', Permutation l l' -> events ev g l' = (g', map ev1 l')) ->
  exists rel p', Publish done ev mlen g p =
      Some (g', longest_of done mlen (map fst (map ev1 l)), sum_pens (map snd (map ev1 l)), rel, p') /\
    Inv done p' /\ Permutation (q p') (filter (fun s => negb (done s)) (map fst (map ev1 l))).
Proof.
  intros I A P E.
  assert (A' : alive done (q p)) by (unfold alive; eapply Permutation_Forall; [symmetry; exact P|auto]).
  destruct (Publish_ok done ev mlen g p I A') as (g1 & lo & tot & rel & p' & outs & E1 & X & Q & _ & I' & S & L & M).
  assert (P2 : Permutation l (rev (q p))) by (rewrite <- P; apply Permutation_rev).
  rewrite (E _ P2) in E1. inversion E1; subst g1 outs. clear E1.
  assert (Pm : Permutation (map ev1 (rev (q p))) (map ev1 l)) by (apply Permutation_map; symmetry; auto).
  exists rel, p'. split; [|split; auto].
  - rewrite X. do 3 f_equal. rewrite M. rewrite (longest_perm _ _ _ (map fst (map ev1 l)) (Permutation_map _ Pm)).
    f_equal. f_equal. f_equal. destruct (fold_pens (map snd (map ev1 l)) []) as [F1 F2].
    apply nth_ext with (d := 0) (d' := 0).
    + rewrite L. unfold sum_pens. rewrite F2. simpl. apply max_len_perm. now apply Permutation_map.
    + intros n _. rewrite S. unfold sum_pens. rewrite F1. replace (nth n [] 0) with 0 by (destruct n; reflexivity).
      rewrite Z.add_0_l. apply sum_at_perm. now apply Permutation_map.
  - rewrite Q. apply filter_perm. now apply Permutation_map.
Qed.
End Bag.
