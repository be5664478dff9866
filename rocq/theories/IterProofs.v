(* IterProofs.v -- segment iterators behave like independent cursors. *)
From Coq Require Import List ZArith Lia Bool.
From Verif Require Import Base Scrap Reorder ReorderSpec.
Import ListNotations.
Open Scope Z_scope.

Definition of_ccall (c : ccall) : icall :=
  match c with CNew => INew false | CNext i => INext i | CSeg i => ISeg i | CEof i => IEof i end.
Definition of_cans (d : bool) (a : cans) : ians :=
  match a with XNone => ANone | XBool b => ABool b | XSeg l r => ASeg d l r end.

(* An iterator stands where the cursor stands. *)
Definition at_cursor (d : bool) (all : list scrap) (it : iter) (cu : cursor) : Prop :=
  exists n, (n <= length all)%nat /\ it_dir it = d /\ it_int it = Z.of_nat n /\ c_rest cu = skipn n all /\
    c_cur cu = match n with O => None | S k => nth_error all k end /\
    it_eof it = (negb (n =? 0)%nat && (n =? length all)%nat).

Definition irel (d : bool) (all : list scrap) (st : irun) (cs : list cursor) : Prop :=
  ir_dir st = d /\ ir_scraps st = all /\ Forall2 (at_cursor d all) (ir_its st) cs.

Lemma Forall2_nth {A B} (R : A -> B -> Prop) la lb : Forall2 R la lb -> forall i,
  match nth_error la i, nth_error lb i with
  | Some a, Some b => R a b
  | None, None => True
  | _, _ => False
  end.
Proof. induction 1; intros [|i]; simpl; auto. apply IHForall2. Qed.

Lemma Forall2_nset {A B} (R : A -> B -> Prop) la lb : Forall2 R la lb -> forall i a b, R a b ->
  Forall2 R (nset la i a) (nset lb i b).
Proof. induction 1; intros [|i] u v H1; simpl; constructor; auto. Qed.

Lemma istep_sim d all st cs c : irel d all st cs ->
  match istep st (of_ccall c), cstep all cs c with
  | Some (st', a), Some (cs', x) => a = of_cans d x /\ irel d all st' cs'
  | None, None => True
  | _, _ => False
  end.
Proof.
  intros (D & S & F). destruct c as [|i|i|i]; cbn [of_ccall istep cstep].
  - split; [reflexivity|]. split; auto. split; auto. cbn [ir_its]. apply Forall2_app; auto. constructor; [|constructor].
    exists 0%nat. cbn. repeat split; auto. lia.
  - pose proof (Forall2_nth _ _ _ F i) as N. destruct (nth_error (ir_its st) i) as [it|], (nth_error cs i) as [cu|]; cbn [obind]; try contradiction; auto.
    destruct N as (n & Ln & Id & Ii & Cr & Cc & Ie). rewrite Ii, S, Cr. unfold zlen.
    destruct (Z.leb_spec (Z.of_nat (length all)) (Z.of_nat n)) as [L|L].
    + rewrite skipn_all2 by lia. split; auto. split; auto.
    + destruct (skipn n all) as [|x t] eqn:E.
      { apply (f_equal (@length _)) in E. rewrite skipn_length in E. cbn in E. lia. }
      split; auto. split; auto. split; auto. cbn [ir_its]. apply Forall2_nset; auto.
      assert (NX : nth_error all n = Some x).
      { rewrite <- (firstn_skipn n all), nth_error_app2; rewrite firstn_length_le by lia; [|lia].
        now rewrite Nat.sub_diag, E. }
      exists (Datatypes.S n). cbn [it_dir it_int it_eof c_rest c_cur]. split; [lia|]. split; auto. split; [lia|]. split.
      { assert (G : skipn (Datatypes.S n) all = tl (skipn n all)).
        { clear. revert n. induction all as [|y u IH]; intros [|n]; try reflexivity. apply (IH n). }
        rewrite G, E. reflexivity. }
      split; auto. rewrite (eq_refl : (Datatypes.S _ =? 0)%nat = false). cbn [negb andb].
      destruct (Z.eqb_spec (Z.of_nat n + 1) (Z.of_nat (length all))) as [Q|Q].
      * symmetry. apply Nat.eqb_eq. lia.
      * rewrite Ie. replace (n =? length all)%nat with false by (symmetry; apply Nat.eqb_neq; lia).
        rewrite andb_false_r. symmetry. apply Nat.eqb_neq. lia.
  - pose proof (Forall2_nth _ _ _ F i) as N. destruct (nth_error (ir_its st) i) as [it|], (nth_error cs i) as [cu|]; cbn [obind]; try contradiction; auto.
    destruct N as (n & Ln & Id & Ii & Cr & Cc & Ie). rewrite Ii, S, Cc, Id.
    destruct n as [|k]; [cbn; split; auto; split; auto|].
    replace (Z.of_nat (Datatypes.S k) =? 0) with false by (symmetry; apply Z.eqb_neq; lia).
    destruct (nth_error all k) as [s|] eqn:E.
    + assert (G : zget all (Z.of_nat (Datatypes.S k) - 1) = Some s).
      { unfold zget. replace (Z.of_nat (Datatypes.S k) - 1) with (Z.of_nat k) by lia.
        assert (k < length all)%nat by lia. unfold zlen. rewrite (proj2 (Z.leb_le 0 (Z.of_nat k))), (proj2 (Z.ltb_lt (Z.of_nat k) _)) by lia. cbn [andb]. now rewrite Nat2Z.id. }
      rewrite G. cbn [obind]. split; auto. split; auto.
    + apply nth_error_None in E. lia.
  - pose proof (Forall2_nth _ _ _ F i) as N. destruct (nth_error (ir_its st) i) as [it|], (nth_error cs i) as [cu|]; cbn [obind]; try contradiction; auto.
    destruct N as (n & Ln & Id & Ii & Cr & Cc & Ie). split; [|split; auto]. cbn [of_cans]. f_equal.
    rewrite Ie, Cc, Cr. destruct n as [|k]; [reflexivity|]. rewrite (eq_refl : (Datatypes.S _ =? 0)%nat = false). cbn [negb andb].
    destruct (nth_error all k) as [s|] eqn:E; [|apply nth_error_None in E; lia].
    destruct (skipn (Datatypes.S k) all) as [|x t] eqn:Q; apply (f_equal (@length _)) in Q; rewrite skipn_length in Q; cbn [length] in Q.
    + apply Nat.eqb_eq. lia.
    + apply Nat.eqb_neq. lia.
Qed.

Lemma iruns_sim d all cs : forall st cus, irel d all st cus ->
  option_map snd (iruns st (map of_ccall cs)) = option_map (fun x => map (of_cans d) (snd x)) (cruns all cus cs).
Proof.
  induction cs as [|c t IH]; intros st cus R; cbn [map iruns cruns]; [reflexivity|].
  pose proof (istep_sim d all st cus c R) as H.
  destruct (istep st (of_ccall c)) as [[st' a]|], (cstep all cus c) as [[cus' x]|]; cbn [obind]; try contradiction; [|reflexivity].
  destruct H as [-> R']. specialize (IH st' cus' R').
  destruct (iruns st' (map of_ccall t)) as [[]|], (cruns all cus' t) as [[]|]; cbn in *; try discriminate; congruence.
Qed.

(* Any history of creating (non-reversing) iterators and calling them, interleaved in any way. *)
Lemma iterators_cursors d all cs :
  option_map snd (iruns (mkir d all []) (map of_ccall cs)) = option_map (fun x => map (of_cans d) (snd x)) (cruns all [] cs).
Proof. apply iruns_sim. split; auto. split; auto. constructor. Qed.

(* The first iterator may be a reversing one: all iterators then work on the reversed segments. *)
Lemma reverse_first d all cs :
  option_map snd (iruns (mkir d all []) (INew true :: map of_ccall cs)) =
  option_map (fun x => map (of_cans d) (snd x)) (cruns (rev all) [] (CNew :: cs)).
Proof.
  cbn [iruns istep ir_scraps ir_dir ir_its obind cruns cstep app].
  assert (R : irel d (rev all) (mkir d (rev all) [mkit d 0 false]) [mkc None (rev all)]).
  { split; auto. split; auto. constructor; [|constructor]. exists 0%nat. cbn. repeat split; auto. lia. }
  pose proof (iruns_sim d (rev all) cs _ _ R) as H.
  destruct (iruns _ (map of_ccall cs)) as [[]|], (cruns (rev all) _ cs) as [[]|]; cbn in *;
    try discriminate; try reflexivity. injection H as ->. reflexivity.
Qed.

(* The client's loop: Next and Segment until there is no more, and Next again and again. *)
Fixpoint loop_calls (n : nat) : list ccall := match n with O => [] | S n => CNext 0 :: CSeg 0 :: loop_calls n end.
Lemma cursor_loop all k : forall rest cur,
  option_map snd (cruns all [mkc cur rest] (loop_calls (length rest) ++ repeat (CNext 0) k)) =
  Some (flat_map (fun s => [XBool true; XSeg (sl s) (sr s)]) rest ++ repeat (XBool false) k).
Proof.
  induction rest as [|x t IH]; intros cur.
  - cbn [length loop_calls app flat_map]. induction k as [|k IHk]; [reflexivity|].
    cbn [repeat cruns cstep nth_error obind c_rest]. destruct (cruns _ _ _) as [[]|]; cbn in *; congruence.
  - cbn [length loop_calls app cruns cstep nth_error obind c_rest nset c_cur flat_map].
    specialize (IH (Some x)). destruct (cruns _ _ _) as [[]|]; cbn in *; congruence.
Qed.

Lemma iterate_all d all rv k :
  option_map snd (iruns (mkir d all []) (INew rv :: map of_ccall (loop_calls (length all) ++ repeat (CNext 0) k))) =
  Some (ANone :: flat_map (fun s => [ABool true; ASeg d (sl s) (sr s)]) (if rv then rev all else all)
        ++ repeat (ABool false) k).
Proof.
  assert (E : option_map snd (iruns (mkir d all []) (INew rv :: map of_ccall (loop_calls (length all) ++ repeat (CNext 0) k))) =
    option_map (fun x => map (of_cans d) (snd x)) (cruns (if rv then rev all else all) [] (CNew :: loop_calls (length all) ++ repeat (CNext 0) k))).
  { destruct rv; [apply reverse_first|]. exact (iterators_cursors d all (CNew :: loop_calls (length all) ++ repeat (CNext 0) k)). }
  rewrite E. cbn [cruns cstep obind app].
  assert (L : length all = length (if rv then rev all else all)) by (destruct rv; [now rewrite rev_length|reflexivity]).
  rewrite L. pose proof (cursor_loop (if rv then rev all else all) k (if rv then rev all else all) None) as H.
  clear E L. destruct (cruns _ _ (loop_calls _ ++ _)) as [[cus xs]|]; [|discriminate H]. cbn in H |- *. injection H as ->. f_equal. f_equal.
  rewrite map_app. f_equal.
  - induction (if rv then rev all else all) as [|x t IH]; [reflexivity|]. cbn. now rewrite IH.
  - clear. induction k; cbn; congruence.
Qed.
