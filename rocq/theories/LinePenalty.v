(* LinePenalty.v -- the penalties the rules of the line breaker give (p, ps in uax14.go). *)
From Coq Require Import List ZArith Lia Bool.
From Verif Require Import Base PrioQ Recognizer Line.
Import ListNotations.
Open Scope Z_scope.

(* 1.3^q truncated *)
Definition power (q : Z) : Z := 13 ^ q / 10 ^ q.
Lemma power_up q : 0 <= q -> power q <= power (q + 1).
Proof.
  intros H. unfold power. rewrite !Z.pow_add_r by lia. change (13 ^ 1) with 13. change (10 ^ 1) with 10.
  assert (0 < 13 ^ q) by (apply Z.pow_pos_nonneg; lia). assert (0 < 10 ^ q) by (apply Z.pow_pos_nonneg; lia).
  rewrite <- (Z.div_mul_cancel_r (13 ^ q) (10 ^ q) 10) by lia.
  apply Z.div_le_mono; lia.
Qed.
Lemma power_pos q : 0 <= q -> 1 <= power q.
Proof.
  intros H. unfold power. assert (0 < 10 ^ q) by (apply Z.pow_pos_nonneg; lia).
  apply Z.div_le_lower_bound; [lia|]. rewrite Z.mul_1_r. apply Z.pow_le_mono_l. lia.
Qed.
Lemma p_power w : p w = if power (31 - w) =? 1 then 2 else power (31 - w).
Proof. reflexivity. Qed.

Lemma p_at_least w : w <= 31 -> 2 <= p w.
Proof. intros H. rewrite p_power. pose proof (power_pos (31 - w)). destruct (Z.eqb_spec (power (31 - w)) 1); lia. Qed.
Lemma p_falls v w : v <= w <= 31 -> p w <= p v.
Proof.
  intros H. assert (S : forall u, u <= 30 -> p (u + 1) <= p u).
  { intros u Hu. rewrite !p_power. pose proof (power_up (31 - (u + 1))) as U. replace (31 - (u + 1) + 1) with (31 - u) in U by lia.
    pose proof (power_pos (31 - (u + 1))). destruct (Z.eqb_spec (power (31 - (u + 1))) 1), (Z.eqb_spec (power (31 - u)) 1); lia. }
  assert (G : forall n, v + Z.of_nat n <= 31 -> p (v + Z.of_nat n) <= p v).
  { induction n; intros L; [rewrite Z.add_0_r; lia|]. specialize (S (v + Z.of_nat n)). specialize (IHn ltac:(lia)).
    replace (v + Z.of_nat (Datatypes.S n)) with (v + Z.of_nat n + 1) by lia. lia. }
  replace w with (v + Z.of_nat (Z.to_nat (w - v))) by lia. apply G. lia.
Qed.
Lemma p_exact : map p [8; 11; 12; 13; 14; 15; 16; 17; 18; 19; 20; 21; 22; 23; 25; 26; 27; 28; 29; 30]
  = [417; 190; 146; 112; 86; 66; 51; 39; 30; 23; 17; 13; 10; 8; 4; 3; 2; 2; 2; 2].
Proof. vm_compute. reflexivity. Qed.
Lemma p_below w : 1 <= w -> p w < Suppress.
Proof.
  intros H. destruct (Z_le_gt_dec w 31) as [L|L].
  - pose proof (p_falls 1 w). change (p 1) with 2619 in *. unfold Suppress. lia.
  - rewrite p_power. unfold power. rewrite !Z.pow_neg_r by lia. reflexivity.
Qed.
Lemma ps_at w first l i : 1 <= l ->
  nth i (ps w first l) 0 = if (i =? 0)%nat then 0 else if (i =? 1)%nat then first else if Z.of_nat i <=? l then p w else 0.
Proof.
  intros H. unfold ps. destruct i as [|[|i]]; cbn [nth Nat.eqb]; auto.
  destruct (Z.leb_spec (Z.of_nat (S (S i))) l).
    rewrite nth_indep with (d' := p w) by (rewrite repeat_length; lia). apply nth_repeat.
  - apply nth_overflow. rewrite repeat_length. lia.
Qed.
Lemma ps_length w first l : 1 <= l -> zlen (ps w first l) = l + 1.
Proof. intros H. unfold ps, zlen. cbn [length]. rewrite repeat_length. lia. Qed.

(* ---- which rule a state function belongs to ---- *)
(* The number of the rule of UAX#14 a state function is written for, read off its name in rules.go;
   None for the hard breaks (LB3 to LB7), which have fixed penalties. *)
Definition rule_of (l : llabel) : option Z :=
  match l with
  | LB3 | NewLine | CRLF | HardBreak | LB7 => None
  | LB8 | LB8_end | LB8a => Some 8 | LB11 => Some 11 | LB12 => Some 12 | LB13 => Some 13
  | LB14 | LB14_end => Some 14 | LB15 | LB15_end => Some 15 | LB16 | LB16_end => Some 16 | LB17 | LB17_end => Some 17
  | LB18 => Some 18 | LB19 => Some 19 | LB20 => Some 20
  | LB21 | LB21x | LB21a | LB21a_end | LB21b | LB21b_end => Some 21 | LB22 | LB22_end => Some 22
  | LB23_1 | LB23_2 | LB23_1_end | LB23_2_end | LB23a_1 | LB23a_2 | LB23a_1_end | LB23a_2_end => Some 23
  | LB24_1 | LB24_2 | LB24_1_end | LB24_2_end => Some 24
  | LB25 | LB25_2 | LB25_3 | LB25_4 | LB25_5 => Some 25
  | LB26_1 | LB26_2 | LB26_3 | LB26_1_end | LB26_2_end | LB26_3_end => Some 26
  | LB27 | LB27_2 | LB27_1_end | LB27_2_end => Some 27 | LB28 | LB28_end => Some 28 | LB29 | LB29_end => Some 29
  | LB30_1 | LB30_2 | LB30_1_end | LB30_2_end | LB30a | LB30a_end | LB30b | LB30b_end => Some 30
  end.
(* LB8 and LB18 break, LB20 breaks on both sides of an object, all others forbid a break *)
Definition fits (l : llabel) (x : Z) : Prop :=
  match rule_of l with
  | None => x = Must \/ x = Suppress
  | Some n => x = (match l with LB8_end | LB18 => - p n | _ => p n end) \/ (l = LB20 /\ x = - p n)
  end.
(* the penalties a state function gives when it ends a match *)
Definition gives (l : llabel) (x : Z) : Prop :=
  exists g r rune c, penalties r = [] /\ In x (penalties (fst (snd (lstep l g r rune c)))).

Lemma in_ps w first l x : In x (ps w first l) -> x = 0 \/ x = first \/ x = p w.
Proof. unfold ps. intros [H|[H|H]]; auto. apply repeat_spec in H. auto. Qed.

Lemma rule_weight l x : ~ In l [LB24_1_end; LB24_2_end] -> gives l x -> x = 0 \/ fits l x.
Proof.
  intros N (g & r & rune & c & P & H). unfold fits.
  destruct l; cbn [In] in N; try tauto;
    cbn [lstep rule_of] in *;
    repeat match type of H with context [if ?b then _ else _] => destruct b end;
    cbn [DoAccept DoAbort Proceed Stay penalties fst snd] in H; rewrite ?P in H; try apply in_ps in H;
    cbn [In] in H; intuition congruence.
Qed.
Lemma LB24_weight l x : In l [LB24_1_end; LB24_2_end] -> gives l x -> x = 0 \/ x = p 23.
Proof.
  intros N (g & r & rune & c & P & H).
  destruct N as [<-|[<-|[]]]; cbn [lstep] in H;
    repeat match type of H with context [if ?b then _ else _] => destruct b end;
    cbn [DoAccept DoAbort penalties fst snd] in H; rewrite ?P in H; cbn [In] in H; intuition congruence.
Qed.
