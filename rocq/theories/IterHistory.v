(* IterHistory.v -- what every call on the iterators of a run answers, as a function of the calls before it. *)
From Coq Require Import List ZArith Lia Bool.
From Verif Require Import Base Scrap Reorder ReorderSpec IterProofs.
Import ListNotations.
Open Scope Z_scope.

(* ---- the specification: no state, only counts over the calls so far ---- *)
Definition made (h : list icall) : nat := length (filter (fun c => match c with INew _ => true | _ => false end) h).
Definition flips (h : list icall) : nat := length (filter (fun c => match c with INew true => true | _ => false end) h).
Definition steps (i : nat) (h : list icall) : nat := length (filter (fun c => match c with INext j => (i =? j)%nat | _ => false end) h).
Definition facing {A} (h : list icall) (all : list A) : list A := if Nat.odd (flips h) then rev all else all.

(* The answer to call c after the calls h; None: there is no such iterator. *)
Definition answer (d : bool) (all : list scrap) (h : list icall) (c : icall) : option ians :=
  match c with
  | INew _ => Some ANone
  | INext i => if (i <? made h)%nat then Some (ABool (steps i h <? length all)%nat) else None
  | IEof i => if (i <? made h)%nat then Some (ABool ((0 <? length all)%nat && (length all <=? steps i h)%nat)) else None
  | ISeg i =>
      if (i <? made h)%nat then
        match Nat.min (steps i h) (length all) with
        | O => Some (ASeg d 0 0)
        | S k => option_map (fun s => ASeg d (sl s) (sr s)) (nth_error (facing h all) k)
        end
      else None
  end.
Fixpoint answers (d : bool) (all : list scrap) (h cs : list icall) : option (list ians) :=
  match cs with
  | [] => Some []
  | c :: t => do a <- answer d all h c; do r <- answers d all (h ++ [c]) t; Some (a :: r)
  end.

(* ---- the state after the calls h ---- *)
Definition iter_of (d : bool) (all : list scrap) (h : list icall) (i : nat) : iter :=
  mkit d (Z.of_nat (Nat.min (steps i h) (length all))) ((0 <? length all)%nat && (length all <=? steps i h)%nat).
Definition state_of (d : bool) (all : list scrap) (h : list icall) (st : irun) : Prop :=
  ir_dir st = d /\ ir_scraps st = facing h all /\ length (ir_its st) = made h /\
  (forall i, (i < made h)%nat -> nth_error (ir_its st) i = Some (iter_of d all h i)) /\ (forall i, (made h <= i)%nat -> steps i h = 0%nat).

Lemma count_snoc {A} (f : A -> bool) h c : length (filter f (h ++ [c])) = (length (filter f h) + (if f c then 1 else 0))%nat.
Proof. rewrite filter_app, app_length. cbn [filter]. destruct (f c); reflexivity. Qed.
Lemma made_snoc h c : made (h ++ [c]) = (made h + match c with INew _ => 1 | _ => 0 end)%nat.
Proof. unfold made. rewrite count_snoc. destruct c; reflexivity. Qed.
Lemma flips_snoc h c : flips (h ++ [c]) = (flips h + match c with INew true => 1 | _ => 0 end)%nat.
Proof. unfold flips. rewrite count_snoc. destruct c as [[]| | |]; reflexivity. Qed.
Lemma steps_snoc i h c : steps i (h ++ [c]) = (steps i h + match c with INext j => if (i =? j)%nat then 1 else 0 | _ => 0 end)%nat.
Proof. unfold steps. rewrite count_snoc. destruct c; reflexivity. Qed.
Lemma facing_length {A} h (all : list A) : length (facing h all) = length all.
Proof. unfold facing. destruct (Nat.odd _); [apply rev_length|reflexivity]. Qed.
Lemma facing_snoc {A} h (all : list A) c : facing (h ++ [c]) all = match c with INew true => rev (facing h all) | _ => facing h all end.
Proof.
  unfold facing. rewrite flips_snoc. destruct c as [[]| | |]; rewrite ?Nat.add_0_r; try reflexivity.
  rewrite Nat.add_1_r, Nat.odd_succ, <- Nat.negb_odd. destruct (Nat.odd (flips h)); cbn [negb]; [rewrite rev_involutive|]; reflexivity.
Qed.

Lemma iter_same d all h c i : (forall j, c <> INext j) -> iter_of d all (h ++ [c]) i = iter_of d all h i.
Proof. intros N. unfold iter_of. rewrite steps_snoc. destruct c as [|j| |]; rewrite ?Nat.add_0_r; try reflexivity. destruct (N j eq_refl). Qed.
Lemma state_same d all h c st : state_of d all h st -> (forall j, c <> INext j) -> (forall rv, c <> INew rv) -> state_of d all (h ++ [c]) st.
Proof.
  intros (D & F & L & N & O) N1 N2.
  assert (M : made (h ++ [c]) = made h) by (rewrite made_snoc; destruct c; try lia; destruct (N2 reverse eq_refl)).
  split; [exact D|]. split; [rewrite facing_snoc; destruct c; auto; destruct (N2 reverse eq_refl)|]. split; [lia|]. split.
  - intros i I. rewrite iter_same by exact N1. apply N. lia.
  - intros i I. rewrite steps_snoc. rewrite O by lia. destruct c as [|j| |]; try reflexivity. destruct (N1 j eq_refl).
Qed.

Lemma step_of d all h st c : state_of d all h st ->
  match istep st c, answer d all h c with
  | Some (st', a), Some b => a = b /\ state_of d all (h ++ [c]) st'
  | None, None => True
  | _, _ => False
  end.
Proof.
  intros ST. pose proof ST as (D & F & L & N & O). destruct c as [rv|i|i|i]; cbn [istep answer].
  - split; [reflexivity|]. rewrite F, D. split; [reflexivity|]. split; [cbn [ir_scraps]; rewrite facing_snoc; destruct rv; reflexivity|].
    cbn [ir_its]. rewrite app_length, made_snoc. cbn [length]. split; [lia|]. split.
    + intros i I. rewrite iter_same by discriminate. destruct (Nat.eq_dec i (made h)) as [->|NE].
      * rewrite nth_error_app2 by lia. rewrite L, Nat.sub_diag. cbn [nth_error]. unfold iter_of. rewrite O by lia. cbn [Nat.min Z.of_nat].
        destruct (length all); reflexivity.
      * rewrite nth_error_app1 by lia. apply N. lia.
    + intros i I. rewrite steps_snoc, O by lia. reflexivity.
  - destruct (Nat.ltb_spec i (made h)) as [I|I].
    2:{ rewrite (proj2 (nth_error_None (ir_its st) i)) by lia. cbn [obind]. exact Logic.I. }
    rewrite (N i I). cbn [obind]. unfold iter_of at 1 2 3 4. cbn [it_int it_dir it_eof]. rewrite F. unfold zlen. rewrite facing_length.
    assert (CH : forall j, (j < made h)%nat -> j <> i -> iter_of d all (h ++ [INext i]) j = iter_of d all h j).
    { intros j J NE. unfold iter_of. rewrite steps_snoc. destruct (Nat.eqb_spec j i); [congruence|]. rewrite Nat.add_0_r. reflexivity. }
    assert (SI : steps i (h ++ [INext i]) = S (steps i h)) by (rewrite steps_snoc, Nat.eqb_refl; lia).
    assert (OO : forall j, (made (h ++ [INext i]) <= j)%nat -> steps j (h ++ [INext i]) = 0%nat).
    { intros j J. rewrite made_snoc, Nat.add_0_r in J. rewrite steps_snoc, O by lia. destruct (Nat.eqb_spec j i); [lia|reflexivity]. }
    assert (MM : made (h ++ [INext i]) = made h) by (rewrite made_snoc; lia).
    destruct (Nat.ltb_spec (steps i h) (length all)) as [S1|S1].
    + rewrite Nat.min_l by lia. replace (Z.of_nat (length all) <=? Z.of_nat (steps i h)) with false by lia. split; [reflexivity|].
      split; [exact D|]. split; [cbn [ir_scraps]; rewrite facing_snoc; reflexivity|]. cbn [ir_its]. rewrite nset_length, MM. split; [exact L|]. split; [|rewrite <- MM; exact OO].
      intros j J. destruct (Nat.eq_dec j i) as [->|NE].
      * rewrite nset_same by lia. f_equal. unfold iter_of. rewrite SI. f_equal; [lia|].
        replace (0 <? length all)%nat with true by (symmetry; apply Nat.ltb_lt; lia). replace (length all <=? steps i h)%nat with false by (symmetry; apply Nat.leb_gt; lia). cbn [andb].
        destruct (Z.eqb_spec (Z.of_nat (steps i h) + 1) (Z.of_nat (length all))); symmetry; [apply Nat.leb_le|apply Nat.leb_gt]; lia.
      * rewrite nset_other by congruence. rewrite CH by auto. apply N, J.
    + rewrite Nat.min_r by lia. rewrite Z.leb_refl. split; [reflexivity|].
      split; [exact D|]. split; [rewrite facing_snoc; exact F|]. rewrite MM. split; [exact L|]. split; [|rewrite <- MM; exact OO].
      intros j J. rewrite (N j J). f_equal. destruct (Nat.eq_dec j i) as [->|NE]; [|symmetry; apply CH; auto].
      unfold iter_of. rewrite SI. f_equal; [lia|]. f_equal. transitivity true; [|symmetry]; apply Nat.leb_le; lia.
  - destruct (Nat.ltb_spec i (made h)) as [I|I].
    2:{ rewrite (proj2 (nth_error_None (ir_its st) i)) by lia. cbn [obind]. exact Logic.I. }
    rewrite (N i I). cbn [obind]. unfold iter_of. cbn [it_int it_dir it_eof]. rewrite F.
    destruct (Nat.min (steps i h) (length all)) as [|k] eqn:E.
    + change (Z.of_nat 0 =? 0) with true. cbv iota. split; [reflexivity|]. apply state_same; auto; discriminate.
    + change (Z.of_nat (S k) =? 0) with false. cbv iota.
      assert (Q : zget (facing h all) (Z.of_nat (S k) - 1) = nth_error (facing h all) k).
      { unfold zget, zlen. rewrite facing_length. replace (Z.of_nat (S k) - 1) with (Z.of_nat k) by lia.
        replace ((0 <=? Z.of_nat k) && (Z.of_nat k <? Z.of_nat (length all))) with true by (symmetry; apply andb_true_iff; lia). rewrite Nat2Z.id. reflexivity. }
      rewrite Q. destruct (nth_error (facing h all) k) as [s|] eqn:NT; cbn [obind option_map]; [|exact Logic.I].
      split; [reflexivity|]. apply state_same; auto; discriminate.
  - destruct (Nat.ltb_spec i (made h)) as [I|I].
    2:{ rewrite (proj2 (nth_error_None (ir_its st) i)) by lia. cbn [obind]. exact Logic.I. }
    rewrite (N i I). cbn [obind]. unfold iter_of. cbn [it_eof]. split; [reflexivity|]. apply state_same; auto; discriminate.
Qed.

Lemma runs_answers d all : forall cs h st, state_of d all h st -> option_map snd (iruns st cs) = answers d all h cs.
Proof.
  induction cs as [|c t IH]; intros h st ST; [reflexivity|]. cbn [iruns answers]. pose proof (step_of d all h st c ST) as H.
  destruct (istep st c) as [[st' a]|], (answer d all h c) as [b|]; cbn [obind]; try contradiction; [|reflexivity].
  destruct H as [-> ST']. specialize (IH _ _ ST'). rewrite <- IH. destruct (iruns st' t) as [[u v]|]; reflexivity.
Qed.
Lemma state_start d all : state_of d all [] (mkir d all []).
Proof. split; [reflexivity|]. split; [reflexivity|]. split; [reflexivity|]. split; [intros i I; inversion I|reflexivity]. Qed.
Lemma history d all cs : option_map snd (iruns (mkir d all []) cs) = answers d all [] cs.
Proof. apply runs_answers, state_start. Qed.

(* No call panics unless the iterator does not exist. *)
Lemma answer_total d all h c : (match c with INew _ => True | INext i | ISeg i | IEof i => (i < made h)%nat end) -> exists a, answer d all h c = Some a.
Proof.
  destruct c as [rv|i|i|i]; cbn [answer]; [eauto| | |]; intros I; apply Nat.ltb_lt in I; rewrite I; try (eexists; reflexivity).
  destruct (Nat.min (steps i h) (length all)) as [|k] eqn:E; [eauto|].
  destruct (nth_error (facing h all) k) as [s|] eqn:N; [cbn; eauto|]. apply nth_error_None in N. rewrite facing_length in N. lia.
Qed.

(* ---- a loop within any other calls ---- *)
(* What iterator i is asked and answers among the calls. *)
Fixpoint seen (d : bool) (all : list scrap) (i : nat) (h cs : list icall) : list (option ians) :=
  match cs with
  | [] => []
  | c :: t => (match c with ISeg j => if (i =? j)%nat then [answer d all h c] else [] | _ => [] end) ++ seen d all i (h ++ [c]) t
  end.

(* The calls of one iterator in a list of calls: Next and Segment in turn. *)
Fixpoint in_turn (i : nat) (next : bool) (cs : list icall) : Prop :=
  match cs with
  | [] => next = true
  | INext j :: t => if (i =? j)%nat then next = true /\ in_turn i false t else in_turn i next t
  | ISeg j :: t => if (i =? j)%nat then next = false /\ in_turn i true t else in_turn i next t
  | _ :: t => in_turn i next t
  end.
Definition no_flip (cs : list icall) : Prop := Forall (fun c => c <> INew true) cs.

Lemma made_mono h c : (made h <= made (h ++ [c]))%nat.
Proof. rewrite made_snoc. destruct c; lia. Qed.
Local Ltac side := first [assumption | lia | let E := fresh in intros E; first [discriminate E | lia | match goal with N : _ = false -> _ |- _ => specialize (N E); lia end]].
Lemma seen_loop d all i : forall cs h next, no_flip cs -> in_turn i next cs -> (i < made h)%nat ->
  (steps i h + steps i cs <= length all)%nat -> (next = false -> 0 < steps i h)%nat ->
  seen d all i h cs = map (fun s => Some (ASeg d (sl s) (sr s)))
    (firstn (steps i cs + (if next then 0 else 1)) (skipn (steps i h - (if next then 0 else 1)) (facing h all))).
Proof.
  induction cs as [|c t IH]; intros h next NF IT MI LE NX; cbn [seen in_turn] in *.
  - subst next. reflexivity.
  - inversion NF as [|? ? NC NT]; subst. pose proof (made_mono h c) as MM.
    assert (FC : facing (h ++ [c]) all = facing h all) by (rewrite facing_snoc; destruct c as [[]| | |]; try reflexivity; congruence).
    assert (CT : steps i (c :: t) = (match c with INext j => if (i =? j)%nat then 1 else 0 | _ => 0 end + steps i t)%nat).
    { unfold steps. cbn [filter]. destruct c as [|j| |]; try reflexivity. destruct (i =? j)%nat; reflexivity. }
    rewrite CT in *. pose proof (steps_snoc i h c) as SS. destruct c as [rv|j|j|j]; cbn [app].
    + rewrite (IH _ next) by side. rewrite FC, SS, Nat.add_0_r. reflexivity.
    + destruct (Nat.eqb_spec i j) as [<-|NE].
      * destruct IT as [-> IT]. rewrite (IH _ false) by side. rewrite FC, SS. replace (steps i h + 1 - 1)%nat with (steps i h) by lia. rewrite Nat.sub_0_r, Nat.add_0_r.
        do 2 f_equal. lia.
      * rewrite (IH _ next) by side. rewrite FC, SS, Nat.add_0_r. reflexivity.
    + destruct (Nat.eqb_spec i j) as [<-|NE].
      * destruct IT as [-> IT]. specialize (NX eq_refl). rewrite (IH _ true) by side. rewrite FC, SS, Nat.add_0_r, Nat.sub_0_r, Nat.add_0_r.
        cbn [answer]. rewrite (proj2 (Nat.ltb_lt i (made h)) MI). rewrite Nat.min_l by lia. destruct (steps i h) as [|k] eqn:E; [lia|].
        destruct (nth_error (facing h all) k) as [s|] eqn:N; [|apply nth_error_None in N; rewrite facing_length in N; lia].
        assert (SK : skipn k (facing h all) = s :: skipn (S k) (facing h all)).
        { clear -N. revert k N. generalize (facing h all) as l. induction l as [|x l IHl]; intros [|k] N; try discriminate N; [injection N as ->; reflexivity|].
          rewrite !skipn_cons. apply IHl. exact N. }
        replace (S k - 1)%nat with k by lia. rewrite SK. replace (0 + steps i t + 1)%nat with (S (steps i t)) by lia. rewrite firstn_cons, map_cons.
        reflexivity.
      * rewrite (IH _ next) by side. rewrite FC, SS, Nat.add_0_r. reflexivity.
    + rewrite (IH _ next) by side. rewrite FC, SS, Nat.add_0_r. reflexivity.
Qed.
