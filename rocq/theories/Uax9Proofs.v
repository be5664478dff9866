(* Uax9Proofs.v -- UAX#9 in one pass, for texts in which European numbers occur after L only; and what
   rewriting the list of classes does to the result. *)
From Coq Require Import List ZArith Lia Bool.
From Verif Require Import Base Scrap Uax9Spec Scanner ScannerProofs Resolver ResolverFlat ResolverText.
Import ListNotations.
Open Scope Z_scope.

(* ---- one pass ---- *)
(* The next direction, a number being L. *)
Fixpoint ahead (e : Z) (cs : list Z) : Z :=
  match cs with
  | [] => e
  | c :: t => if (c =? cL) || (c =? cEN) then cL else if c =? cR then cR else ahead e t
  end.

(* [q]: the character before is a number or belongs to it.  [p]: the direction before. *)
Definition number (q : bool) (c : Z) (t : list Z) : bool := (c =? cEN) || (c =? cET) && (q || en_ahead t).
Fixpoint fc (e : Z) (q : bool) (p : Z) (cs : list Z) : list Z :=
  match cs with
  | [] => []
  | c :: t =>
      if number q c t then cL :: fc e true cL t
      else if (c =? cL) || (c =? cR) then c :: fc e false c t
      else (if p =? ahead e t then p else e) :: fc e false p t
  end.

(* The classes of the texts, raw and after W1 to W3. *)
Definition raw9 : list Z := [cL; cR; cAL; cEN; cES; cET; cCS; cS; cWS; cON].
Definition mid9 : list Z := [cL; cR; cEN; cES; cET; cCS; cS; cWS; cON].

Ltac cases9 H := cbn [In raw9 mid9] in H; repeat (destruct H as [<-|H]; [|]); try contradiction H.

(* European numbers after L only. *)
Fixpoint enl (s : Z) (cs : list Z) : Prop :=
  match cs with
  | [] => True
  | c :: t => (c = cEN -> s = cL) /\ enl (if is_strong c then c else s) t
  end.

Lemma enl_none s : forall cs, ~ In cEN cs -> enl s cs.
Proof. intros cs. revert s. induction cs as [|c t IH]; intros s N; [exact I|]. cbn. split; [intros ->; elim N; left; auto|]. apply IH. intros X. apply N. right. auto. Qed.

Lemma calm_no_en : forall cs prev, calm true cAL prev cs = true -> ~ In cEN (W1 prev cs).
Proof.
  induction cs as [|c t IH]; intros prev H; [intros []|]. apply calm_cons in H. cbv zeta in H.
  cbn [W1]. set (k := if c =? cNSM then prev else c) in *. destruct H as (_ & H1 & _ & _ & H2).
  change (strong_after cAL k) with cAL in H2. intros [X|X]; [discriminate (H1 X)|exact (IH _ H2 X)].
Qed.

Lemma calm_enl : forall cs st s prev, calm true st prev cs = true -> st = s \/ st = cAL -> enl s (W1 prev cs).
Proof.
  induction cs as [|c t IH]; intros st s prev H S; [exact I|]. destruct S as [-> | ->].
  2:{ apply enl_none, calm_no_en, H. }
  apply calm_cons in H. cbv zeta in H. cbn [W1 enl]. set (k := if c =? cNSM then prev else c) in *.
  destruct H as (_ & H1 & _ & _ & H2). split; [exact H1|]. apply (IH _ _ _ H2).
  unfold strong_after, is_strong. destruct (Z.eqb_spec s cAL) as [->|NS]; [right; reflexivity|]. cbn [orb].
  destruct (Z.eqb_spec k cAL); [auto|]. rewrite orb_false_r. destruct (Z.eqb_spec k cL) as [->|_]; [auto|]. cbn [orb].
  destruct (Z.eqb_spec k cR) as [->|_]; auto.
Qed.

Lemma W2_id : forall cs s, enl s cs -> W2 s cs = cs.
Proof.
  induction cs as [|c t IH]; intros s H; [reflexivity|]. destruct H as [H1 H2]. cbn [W2]. rewrite (IH _ H2).
  destruct (Z.eqb_spec c cEN) as [E|_]; [|reflexivity]. rewrite (H1 E). reflexivity.
Qed.

Lemma enl_W3 : forall cs s, Forall (fun c => In c raw9) cs -> enl s cs -> enl (if s =? cAL then cR else s) (W3 cs).
Proof.
  induction cs as [|c t IH]; intros s F H; [exact I|]. inversion F as [|? ? C F']; subst. destruct H as [H1 H2].
  cbn [W3 map enl]. fold (W3 t). specialize (IH _ F' H2).
  split.
  - intros X. destruct (Z.eqb_spec c cAL) as [->|_]; [discriminate X|]. rewrite (H1 X). reflexivity.
  - cases9 C; exact IH.
Qed.

Lemma mid_W3 cs : Forall (fun c => In c raw9) cs -> Forall (fun c => In c mid9) (W3 cs).
Proof. intros F. apply Forall_map. eapply Forall_impl; [|exact F]. intros c C. cases9 C; cbn; auto 12. Qed.

Lemma enl_ahead s : forall cs, Forall (fun c => In c mid9) cs -> enl s cs -> en_ahead cs = true -> s = cL.
Proof.
  induction cs as [|c t IH]; intros F H E; [discriminate|]. inversion F as [|? ? C F']; subst. destruct H as [H1 H2].
  cases9 C; try discriminate E; [apply H1; reflexivity|]. exact (IH F' H2 E).
Qed.

Lemma W4_ahead prev : forall cs, Forall (fun c => In c mid9) cs -> prev <> cEN -> en_ahead (W4 prev cs) = en_ahead cs.
Proof.
  intros cs F. revert prev. induction F as [|c t C F IH]; intros prev N; [reflexivity|]. cbn [W4].
  assert (P : (prev =? cEN) = false) by (apply Z.eqb_neq; exact N). rewrite P, !andb_false_r. cbn [andb].
  cases9 C; try reflexivity.
  - change (en_ahead (W4 cET t) = en_ahead t). apply IH. discriminate.
  - match goal with |- context [if ?b then cAN else cCS] => destruct b end; reflexivity.
Qed.

(* The numbers made by W4 and W5 are in the same context. *)
Lemma enl_W45 : forall cs s prev4 prev5, Forall (fun c => In c mid9) cs -> enl s cs ->
  (prev4 = cEN -> s = cL) -> (prev5 = cEN -> s = cL) -> prev4 <> cAN -> enl s (W5 prev5 (W4 prev4 cs)).
Proof.
  induction cs as [|c t IH]; intros s p4 p5 F H P4 P5 PA; [exact I|]. inversion F as [|? ? C F']; subst. destruct H as [H1 H2].
  assert (PA' : (p4 =? cAN) = false) by (apply Z.eqb_neq; exact PA).
  cbn [W4]. rewrite PA', andb_false_r. cbn [andb].
  cbn [W5]. cbv zeta. cbn [enl].
  assert (CA : c <> cAN) by (cases9 C; discriminate).
  set (c4 := if ((c =? cES) || (c =? cCS)) && (p4 =? cEN) && (hd cNULL t =? cEN) then cEN else c).
  assert (E4 : c4 = cEN -> s = cL).
  { unfold c4. destruct (Z.eqb_spec p4 cEN) as [E|_]; [auto|]. rewrite andb_false_r. cbn [andb]. auto. }
  set (c5 := if (c4 =? cET) && ((p5 =? cEN) || en_ahead (W4 c t)) then cEN else c4).
  assert (E5 : c5 = cEN -> s = cL).
  { unfold c5. destruct (Z.eqb_spec c4 cET) as [X|_]; [|auto]. cbn [andb].
    assert (c = cET).
    { revert X. unfold c4. destruct (_ && _ && _); [discriminate|auto]. }
    subst c. destruct (Z.eqb_spec p5 cEN) as [E|_]; [auto|]. cbn [orb]. rewrite W4_ahead by (auto; discriminate).
    destruct (en_ahead t) eqn:EA; [|auto]. intros _. exact (enl_ahead _ _ F' H2 EA). }
  split; [exact E5|].
  assert (S5 : is_strong c5 = is_strong c /\ (is_strong c = true -> c5 = c)).
  { unfold c5, c4. cases9 C; cbn; repeat match goal with |- context [if ?b then _ else _] => destruct b end; cbn; split; try reflexivity; discriminate. }
  destruct S5 as [S5 S5']. rewrite S5.
  destruct (is_strong c) eqn:SC.
  - rewrite (S5' eq_refl). apply IH; auto; intros ->; discriminate SC.
  - apply IH; auto.
Qed.

(* W6 and W7 for such texts. *)
Definition last67 (c : Z) : Z := if c =? cEN then cL else if (c =? cES) || (c =? cET) || (c =? cCS) then cON else c.
Lemma W67 : forall cs s, enl s cs -> W7 s (W6 cs) = map last67 cs.
Proof.
  induction cs as [|c t IH]; intros s H; [reflexivity|]. destruct H as [H1 H2]. cbn [W6 map W7]. fold (W6 t). unfold last67 at 1.
  destruct (Z.eqb_spec c cEN) as [->|NE].
  - rewrite (H1 eq_refl). cbn in *. f_equal. rewrite (H1 eq_refl) in H2. exact (IH _ H2).
  - destruct ((c =? cES) || (c =? cET) || (c =? cCS)) eqn:E.
    + change (cON =? cEN) with false. cbn [andb]. f_equal. apply IH. change (is_strong cON) with false. cbv iota.
      assert (X : is_strong c = false).
      { apply orb_true_iff in E. destruct E as [E|E]; [apply orb_true_iff in E; destruct E as [E|E]|]; apply Z.eqb_eq in E; subst c; reflexivity. }
      rewrite X in H2. exact H2.
    + apply Z.eqb_neq in NE. rewrite NE. cbn [andb]. f_equal. apply IH. exact H2.
Qed.

(* The direction ahead. *)
Lemma ahead_W45 e : forall cs p4 p5, Forall (fun c => In c mid9) cs -> p4 <> cEN -> p4 <> cAN -> p5 <> cEN ->
  side_ahead e (map last67 (W5 p5 (W4 p4 cs))) = ahead e (map norm cs).
Proof.
  induction cs as [|c t IH]; intros p4 p5 F N4 NA N5; [reflexivity|]. inversion F as [|? ? C F']; subst.
  assert (P4 : (p4 =? cEN) = false) by (apply Z.eqb_neq; auto). assert (P5 : (p5 =? cEN) = false) by (apply Z.eqb_neq; auto).
  assert (PA : (p4 =? cAN) = false) by (apply Z.eqb_neq; auto).
  cbn [W4]. rewrite P4, PA, !andb_false_r. cbn [andb W5]. cbv zeta. rewrite P5. cbn [orb].
  cases9 C; try reflexivity; try (cbn; apply IH; auto; discriminate).
  change (cET =? cET) with true. cbn [andb]. rewrite W4_ahead by (auto; discriminate).
  destruct (en_ahead t) eqn:EA.
  - cbn. clear - EA F'. induction F' as [|c t C F IH]; [discriminate|]. cbn in EA. cases9 C; try discriminate EA; [reflexivity|].
    cbn. apply IH. exact EA.
  - cbn. apply IH; auto; discriminate.
Qed.

Lemma en_ahead_norm cs : Forall (fun c => In c mid9) cs -> en_ahead (map norm cs) = en_ahead cs.
Proof. induction 1 as [|c t C F IH]; [reflexivity|]. cases9 C; try reflexivity. exact IH. Qed.

Lemma fc_W45 e : forall cs p4 p5 p, Forall (fun c => In c mid9) cs -> p4 <> cAN -> (p4 = cEN -> p5 = cEN) -> (p5 = cEN -> p = cL) ->
  N12 e p (map last67 (W5 p5 (W4 p4 cs))) = fc e (p5 =? cEN) p (map norm cs).
Proof.
  induction cs as [|c t IH]; intros p4 p5 p F NA P45 P5; [reflexivity|]. inversion F as [|? ? C F']; subst.
  assert (PA : (p4 =? cAN) = false) by (apply Z.eqb_neq; auto).
  assert (SEP : In c [cES; cCS] ->
    N12 e p (map last67 (W5 p5 (W4 p4 (c :: t)))) = fc e (p5 =? cEN) p (map norm (c :: t))).
  { intros S. cbn [W4]. rewrite PA, andb_false_r. cbn [andb].
    assert (X1 : (c =? cES) || (c =? cCS) = true) by (destruct S as [<-|[<-|[]]]; reflexivity). rewrite X1. cbn [andb].
    assert (NC : norm c = c) by (destruct S as [<-|[<-|[]]]; reflexivity). cbn [map]. rewrite NC. cbn [fc].
    assert (NU : number (p5 =? cEN) c (map norm t) = false) by (destruct S as [<-|[<-|[]]]; reflexivity). rewrite NU.
    assert (SC : (c =? cL) || (c =? cR) = false) by (destruct S as [<-|[<-|[]]]; reflexivity). rewrite SC.
    assert (CN : c <> cEN /\ c <> cAN /\ c <> cET) by (destruct S as [<-|[<-|[]]]; repeat split; discriminate). destruct CN as (CN1 & CN2 & CN3).
    destruct ((p4 =? cEN) && (hd cNULL t =? cEN)) eqn:W.
    - apply andb_true_iff in W. destruct W as [W1' W2']. apply Z.eqb_eq in W1', W2'. specialize (P45 W1'). specialize (P5 P45).
      destruct t as [|d t]; [discriminate W2'|]. cbn [hd] in W2'. subst d. rewrite P5.
      cbn [W5]. change (cEN =? cET) with false. cbn [andb]. change (last67 cEN) with cL. cbn [map]. change (last67 cEN) with cL.
      cbn [N12]. change (NI_class cL) with false. cbv iota.
      change (ahead e (norm cEN :: map norm t)) with cL. rewrite Z.eqb_refl. f_equal.
      change (side cL) with cL. rewrite (IH c cEN cL F' CN2 (fun _ => eq_refl) (fun _ => eq_refl)). reflexivity.
    - assert (CT : (c =? cET) = false) by (apply Z.eqb_neq; auto).
      cbn [W5]. rewrite CT. cbn [andb map].
      assert (L : last67 c = cON) by (destruct S as [<-|[<-|[]]]; reflexivity). rewrite L.
      cbn [N12]. change (NI_class cON) with true. cbv iota. rewrite ahead_W45 by auto. f_equal.
      rewrite (IH c c p F' CN2) by (intros; contradiction). assert (CE : (c =? cEN) = false) by (apply Z.eqb_neq; auto). rewrite CE. reflexivity. }
  assert (NEU : In c [cS; cWS; cON] ->
    N12 e p (map last67 (W5 p5 (W4 p4 (c :: t)))) = fc e (p5 =? cEN) p (map norm (c :: t))).
  { intros S.
    assert (X : ((c =? cES) || (c =? cCS)) = false /\ (c =? cCS) = false /\ (c =? cET) = false /\ last67 c = c /\ NI_class c = true /\ norm c = cNI /\ c <> cEN /\ c <> cAN)
      by (destruct S as [<-|[<-|[<-|[]]]]; repeat split; try reflexivity; discriminate).
    destruct X as (X1 & X2 & X3 & X4 & X5 & X6 & X7 & X8).
    cbn [W4]. rewrite X1, X2. cbn [andb W5]. rewrite X3. cbn [andb map]. rewrite X4, X6. cbn [N12 fc]. rewrite X5.
    change (number (p5 =? cEN) cNI (map norm t)) with false. change ((cNI =? cL) || (cNI =? cR)) with false. cbv iota.
    rewrite ahead_W45 by auto. f_equal. rewrite (IH c c p F' X8) by (intros; contradiction).
    assert (CE : (c =? cEN) = false) by (apply Z.eqb_neq; auto). rewrite CE. reflexivity. }
  cases9 C; try (apply SEP; cbn; solve [auto]); try (apply NEU; cbn; solve [auto]).
  - change (cL :: N12 e cL (map last67 (W5 cL (W4 cL t))) = cL :: fc e false cL (map norm t)). f_equal.
    apply (IH cL cL cL F'); discriminate.
  - change (cR :: N12 e cR (map last67 (W5 cR (W4 cR t))) = cR :: fc e false cR (map norm t)). f_equal.
    apply (IH cR cR cR F'); discriminate.
  - change (cL :: N12 e cL (map last67 (W5 cEN (W4 cEN t))) = cL :: fc e true cL (map norm t)). f_equal.
    apply (IH cEN cEN cL F'); [discriminate|auto|auto].
  - change (N12 e p (map last67 (W5 p5 (cET :: W4 cET t))) = fc e (p5 =? cEN) p (cET :: map norm t)).
    cbn [W5 fc]. unfold number. change (cET =? cET) with true. change (cET =? cEN) with false. cbn [andb orb]. rewrite W4_ahead by (auto; discriminate).
    rewrite en_ahead_norm by auto. destruct ((p5 =? cEN) || en_ahead t) eqn:Q.
    + change (cL :: N12 e cL (map last67 (W5 cEN (W4 cET t))) = cL :: fc e true cL (map norm t)). f_equal.
      apply (IH cET cEN cL F'); [discriminate|auto|auto].
    + change ((if p =? side_ahead e (map last67 (W5 cET (W4 cET t))) then p else e) :: N12 e p (map last67 (W5 cET (W4 cET t)))
        = (if p =? ahead e (map norm t) then p else e) :: fc e false p (map norm t)).
      rewrite ahead_W45 by (auto; discriminate). f_equal. apply (IH cET cET p F'); discriminate.
Qed.

Lemma norm_W3 c : norm (if c =? cAL then cR else c) = norm c.
Proof. unfold norm at 2. destruct (Z.eqb_spec c cAL) as [->|N]; [reflexivity|]. unfold norm. apply Z.eqb_neq in N. rewrite N. reflexivity. Qed.

Lemma W1_classes (D : list Z) : forall cs prev, Forall (fun c => In c (cNSM :: D)) cs -> In prev D -> Forall (fun c => In c D) (W1 prev cs).
Proof.
  induction cs as [|c t IH]; intros prev F P; [constructor|]. inversion F as [|? ? C F']; subst. cbn [W1].
  set (k := if c =? cNSM then prev else c). assert (K : In k D).
  { unfold k. destruct (Z.eqb_spec c cNSM) as [->|N]; [exact P|]. destruct C as [C|C]; [congruence|exact C]. }
  constructor; auto.
Qed.

(* The rules in one pass. *)
Theorem uax9_fc e cs : e = cL \/ e = cR -> Forall (fun c => In c (cNSM :: raw9)) cs -> hd cL cs <> cNSM ->
  calm true e cNULL cs = true -> uax9 e cs = fc e false e (map norm (W1 e cs)).
Proof.
  intros E F H CA. unfold uax9.
  assert (W : W1 cNULL cs = W1 e cs).
  { destruct cs as [|c t]; [reflexivity|]. cbn [hd] in H. cbn [W1]. apply Z.eqb_neq in H. rewrite H. reflexivity. }
  pose proof (calm_enl _ _ e _ CA (or_introl eq_refl)) as EL. rewrite W in EL.
  assert (IE : In e raw9) by (destruct E as [-> | ->]; cbn; auto).
  pose proof (W1_classes raw9 cs e F IE) as F1. rewrite (W2_id _ _ EL).
  pose proof (enl_W3 _ _ F1 EL) as E3. pose proof (mid_W3 _ F1) as F3.
  assert (EE : (if e =? cAL then cR else e) = e) by (destruct E as [-> | ->]; reflexivity). rewrite EE in E3.
  set (x := W3 (W1 e cs)) in *.
  rewrite (W67 (W5 e (W4 e x)) e) by (apply enl_W45; auto; destruct E as [-> | ->]; discriminate).
  rewrite (fc_W45 e x e e e F3) by (destruct E as [-> | ->]; discriminate || auto).
  replace (e =? cEN) with false by (destruct E as [-> | ->]; reflexivity). f_equal.
  unfold x, W3. rewrite map_map. apply map_ext. intros c. apply norm_W3.
Qed.
