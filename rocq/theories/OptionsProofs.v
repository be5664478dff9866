(* OptionsProofs.v -- what a list of options sets. *)
From Coq Require Import List ZArith Lia Bool Permutation.
From Verif Require Import Base Scanner Options.
Import ListNotations.
Open Scope Z_scope.

(* ---- independent view: a call of one of the four functions ---- *)
Inductive call := CLegacy (b : bool) | CDir (dir : Z) | CTest (b : bool) | CIgnore (b : bool) | CNil.
Definition option_of (c : call) : Option :=
  match c with CLegacy b => RecognizeLegacy b | CDir d => DefaultDirection d | CTest b => TestMode b | CIgnore b => IgnoreParagraphSeparators b | CNil => None end.

(* what a call says about each of the three settings, if anything *)
Definition says_r2l (c : call) : option bool := match c with CDir d => Some (d =? 1) | _ => None end.
Definition says_test (c : call) : option bool := match c with CTest b => Some b | _ => None end.
Definition says_ignore (c : call) : option bool := match c with CIgnore b => Some b | _ => None end.
(* the last word on a setting, false without any *)
Definition last_word (says : call -> option bool) (cs : list call) : bool :=
  fold_left (fun cur c => match says c with Some b => b | None => cur end) cs false.
Definition wanted (cs : list call) : Scanner.mode := mkmode (last_word says_r2l cs) (last_word says_test cs) (last_word says_ignore cs).
(* some call says yes *)
Definition some_yes (says : call -> option bool) (cs : list call) : bool :=
  existsb (fun c => match says c with Some b => b | None => false end) cs.
(* no call says no after a call has said yes *)
Fixpoint no_retreat (says : call -> option bool) (yes : bool) (cs : list call) : bool :=
  match cs with
  | [] => true
  | c :: t => match says c with Some b => negb (yes && negb b) && no_retreat says (yes || b) t | None => no_retreat says yes t end
  end.

(* ---- bits ---- *)
Lemma land_bit mode k : 0 <= k -> (0 <? Z.land mode (2 ^ k)) = Z.testbit mode k.
Proof.
  intros K. rewrite (Z.land_comm mode). rewrite Z.land_comm. destruct (Z.testbit mode k) eqn:T.
  - assert (E : Z.land mode (2 ^ k) = 2 ^ k).
    { apply Z.bits_inj'. intros n N. rewrite Z.land_spec, Z.pow2_bits_eqb by lia. destruct (Z.eqb_spec k n); [subst n; now rewrite T|apply andb_false_r]. }
    rewrite E. apply Z.ltb_lt. apply Z.pow_pos_nonneg; lia.
  - assert (E : Z.land mode (2 ^ k) = 0).
    { apply Z.bits_inj'. intros n N. rewrite Z.land_spec, Z.pow2_bits_eqb, Z.bits_0 by lia. destruct (Z.eqb_spec k n); [subst n; now rewrite T|apply andb_false_r]. }
    rewrite E. reflexivity.
Qed.
Lemma has_bit mode k : 0 <= k -> hasMode mode (2 ^ k) = Z.testbit mode k.
Proof. intros K. unfold hasMode. now apply land_bit. Qed.
Lemma lor_bit mode k n : 0 <= k -> 0 <= n -> Z.testbit (Z.lor mode (2 ^ k)) n = Z.testbit mode n || (k =? n).
Proof. intros K N. rewrite Z.lor_spec, Z.pow2_bits_eqb by lia. reflexivity. Qed.
Lemma switch_bit mode k b n : 0 <= k -> 0 <= n -> Z.testbit (switch (2 ^ k) b mode) n = Z.testbit mode n || ((k =? n) && b).
Proof.
  intros K N. unfold switch. rewrite has_bit by lia. destruct (Z.testbit mode k) eqn:T, b; cbn [negb andb orb];
    rewrite ?lor_bit by lia; destruct (Z.eqb_spec k n); cbn [andb]; rewrite ?orb_false_r; try reflexivity; subst n; now rewrite T.
Qed.

(* one call *)
Definition step (mode : Z) (c : call) : Z := match option_of c with Some f => f mode | None => mode end.
Lemma step_bits mode c : 
  Z.testbit (step mode c) 2 = Z.testbit mode 2 || match says_r2l c with Some b => b | None => false end /\
  Z.testbit (step mode c) 3 = Z.testbit mode 3 || match says_test c with Some b => b | None => false end /\
  Z.testbit (step mode c) 4 = Z.testbit mode 4 || match says_ignore c with Some b => b | None => false end.
Proof.
  unfold step. destruct c as [b|d|b|b|]; cbn [option_of says_r2l says_test says_ignore RecognizeLegacy TestMode IgnoreParagraphSeparators].
  - change optionRecognizeLegacy with (2 ^ 1). rewrite !switch_bit by lia. cbn [Z.eqb Pos.eqb andb]. auto.
  - unfold DefaultDirection. destruct (d =? 1); [|rewrite !orb_false_r; auto]. change optionOuterR2L with (2 ^ 2). rewrite !lor_bit by lia. cbn [Z.eqb Pos.eqb]. auto.
  - change optionTesting with (2 ^ 3). rewrite !switch_bit by lia. cbn [Z.eqb Pos.eqb andb]. auto.
  - change optionIgnoreParSep with (2 ^ 4). rewrite !switch_bit by lia. cbn [Z.eqb Pos.eqb andb]. auto.
  - rewrite !orb_false_r. auto.
Qed.
Lemma apply_bits cs : forall mode,
  Z.testbit (apply_options mode (map option_of cs)) 2 = Z.testbit mode 2 || some_yes says_r2l cs /\
  Z.testbit (apply_options mode (map option_of cs)) 3 = Z.testbit mode 3 || some_yes says_test cs /\
  Z.testbit (apply_options mode (map option_of cs)) 4 = Z.testbit mode 4 || some_yes says_ignore cs.
Proof.
  induction cs as [|c cs IH]; intros mode; [cbn; rewrite !orb_false_r; auto|].
  change (apply_options mode (map option_of (c :: cs))) with (apply_options (step mode c) (map option_of cs)).
  destruct (IH (step mode c)) as (E2 & E3 & E4). destruct (step_bits mode c) as (S2 & S3 & S4).
  rewrite E2, E3, E4, S2, S3, S4. unfold some_yes. cbn [existsb]. rewrite !orb_assoc. auto.
Qed.
(* The flags: each is set iff some option switches it on. *)
Lemma configure_yes cs : configure (map option_of cs) = mkmode (some_yes says_r2l cs) (some_yes says_test cs) (some_yes says_ignore cs).
Proof.
  unfold configure, mode_of. change optionOuterR2L with (2 ^ 2). change optionTesting with (2 ^ 3). change optionIgnoreParSep with (2 ^ 4).
  rewrite !has_bit by lia. destruct (apply_bits cs 0) as (-> & -> & ->). reflexivity.
Qed.

Lemma last_yes says cs : forall cur, no_retreat says cur cs = true ->
  fold_left (fun cur c => match says c with Some b => b | None => cur end) cs cur = cur || some_yes says cs.
Proof.
  induction cs as [|c cs IH]; intros cur N; [cbn; now rewrite orb_false_r|]. cbn [fold_left no_retreat] in *. unfold some_yes in *. cbn [existsb].
  destruct (says c) as [b|].
  - apply andb_true_iff in N. destruct N as (N & R). assert (E : b = cur || b) by (destruct cur, b; [reflexivity|discriminate|reflexivity|reflexivity]).
    rewrite IH by (rewrite E; exact R). rewrite orb_assoc. now rewrite <- E.
  - now rewrite IH by exact N.
Qed.
Lemma retreat_differs says cs : no_retreat says false cs = false -> (forall t c, cs = t ++ [c] -> says c = Some false) ->
  last_word says cs = false /\ some_yes says cs = true.
Proof.
  intros N L. split.
  - destruct cs as [|c cs] using rev_ind; [discriminate|]. unfold last_word. rewrite fold_left_app. cbn [fold_left]. now rewrite (L cs c eq_refl).
  - clear L. revert N. unfold some_yes. induction cs as [|c cs IH]; intros N; [discriminate|]. cbn [no_retreat existsb] in *.
    destruct (says c) as [[]|]; [reflexivity|cbn in N; auto|auto].
Qed.
Lemma configure_wanted cs : no_retreat says_r2l false cs = true -> no_retreat says_test false cs = true -> no_retreat says_ignore false cs = true ->
  configure (map option_of cs) = wanted cs.
Proof.
  intros A B C. rewrite configure_yes. unfold wanted, last_word. now rewrite !last_yes by assumption.
Qed.
Lemma some_yes_perm says cs ds : Permutation cs ds -> some_yes says cs = some_yes says ds.
Proof.
  unfold some_yes. induction 1 as [|x a b P IH|x y a|a b c P1 I1 P2 I2]; [reflexivity|cbn [existsb]; now rewrite IH| |congruence].
  cbn [existsb]. rewrite !orb_assoc. f_equal. apply orb_comm.
Qed.
Lemma configure_perm cs ds : Permutation cs ds -> configure (map option_of cs) = configure (map option_of ds).
Proof. intros P. rewrite !configure_yes. now rewrite !(some_yes_perm _ _ _ P). Qed.
