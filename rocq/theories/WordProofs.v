(* WordProofs.v -- one round of the word breaker as a step on a summary of the past. *)
From Coq Require Import List ZArith Lia Bool Permutation.
From Verif Require Import Base PrioQ PrioQProofs Recognizer Bag Words.
Import ListNotations.
Open Scope Z_scope.

(* ---- what is left of the past ---- *)
(* The live recognisers were all started by one character, n runes ago. *)
Inductive wbase := W0 | WCR | WSp | WA (n : Z) | WH (n : Z) | WN (n : Z) | WX (n : Z) | WK (n : Z) | WR (n : Z)
  | WAM (m n : Z) | WNM (m n : Z) | WHD (n : Z).
Definition wstate : Type := wbase * Z.   (* and the class of the previous rune *)

Definition rc (e n : Z) (l : wlabel) : rec wlabel := mkrec e n [] (Some l).
Definition base_recs (e : Z) (b : wbase) : list (rec wlabel) :=
  match b with
  | W0 => []
  | WCR => [rc e 1 CRLF]
  | WSp => [rc e 1 WB3d_end]
  | WA n => [rc e n WB5_10_end; rc e n WB6_7_cont; rc e n WB8_9_end; rc e n WB13a_end]
  | WH n => [rc e n WB5_10_end; rc e n WB6_7_cont; rc e n WB7a_end; rc e n WB7bc_cont; rc e n WB8_9_end; rc e n WB13a_end]
  | WN n => [rc e n WB8_9_end; rc e n WB5_10_end; rc e n WB11_cont; rc e n WB13a_end]
  | WX n => [rc e n WB13a_end; rc e n WB13b_end]
  | WK n => [rc e n WB13_end; rc e n WB13a_end]
  | WR n => [rc e n WB15_end]
  | WAM m n => [rc m n WB6_7_end]
  | WNM m n => [rc m n WB11_end]
  | WHD n => [rc e n WB7bc_end]
  end.
Definition bag (e e' : Z) (st : wstate) : list (rec wlabel) :=
  base_recs e (fst st) ++ (if snd st =? ZWJ then [rc e' 1 Pictography] else []).

Definition is_WR (b : wbase) : bool := match b with WR _ => true | _ => false end.
Definition wbnext (b : wbase) (c : Z) : wbase :=
  if ignored c then
    match b with
    | WA n => WA (n + 1) | WH n => WH (n + 1) | WN n => WN (n + 1) | WX n => WX (n + 1) | WK n => WK (n + 1) | WR n => WR (n + 1)
    | WAM m n => WAM m (n + 1) | WNM m n => WNM m (n + 1) | WHD n => WHD (n + 1)
    | _ => W0
    end
  else if c =? CR then WCR else if c =? WSegSpace then WSp else if c =? ALetter then WA 1 else if c =? Hebrew_Letter then WH 1
  else if c =? Numeric then WN 1 else if c =? ExtendNumLet then WX 1 else if c =? Katakana then WK 1
  else if c =? RI then (if is_WR b then W0 else WR 1)
  else match b with
  | WA n => if (c =? MidLetter) || (c =? MidNumLet) || (c =? Single_Quote) then WAM (n + 1) (n + 1) else W0
  | WH n => if (c =? MidLetter) || (c =? MidNumLet) || (c =? Single_Quote) then WAM (n + 1) (n + 1)
            else if c =? Double_Quote then WHD (n + 1) else W0
  | WN n => if (c =? MidNum) || (c =? MidNumLet) || (c =? Single_Quote) then WNM (n + 1) (n + 1) else W0
  | _ => W0
  end.
Definition wnext (st : wstate) (c : Z) : wstate := (wbnext (fst st) c, c).

Definition base_len (b : wbase) : Z :=
  match b with
  | W0 => 0 | WCR | WSp => 1
  | WA n | WH n | WN n | WX n | WK n | WR n | WAM _ n | WNM _ n | WHD n => n
  end.
Definition wlam (st : wstate) : Z := Z.max (base_len (fst st)) (if snd st =? ZWJ then 1 else 0).

Definition wfirst (b : wbase) (c : Z) : Z :=
  (if (c =? LF) || (c =? Newline) then -10000 else 0) + match b with WCR => if c =? LF then -10000 else 0 | _ => 0 end.
Definition wjoin (b : wbase) (c : Z) : Z :=
  match b with
  | W0 => 0
  | WCR => if c =? LF then 30000 else -10000
  | WSp => if c =? WSegSpace then 10000 else 0
  | WA _ => if ah c || (c =? Numeric) || (c =? ExtendNumLet) then 10000 else 0
  | WH _ => if ah c || (c =? Numeric) || (c =? ExtendNumLet) || (c =? Single_Quote) then 10000 else 0
  | WN _ => if ah c || (c =? Numeric) || (c =? ExtendNumLet) then 10000 else 0
  | WX _ => if ah c || (c =? Numeric) || (c =? ExtendNumLet) || (c =? Katakana) then 10000 else 0
  | WK _ => if (c =? Katakana) || (c =? ExtendNumLet) then 10000 else 0
  | WR _ => if c =? RI then 10000 else 0
  | WAM _ _ => if ah c then 10000 else 0
  | WNM _ _ => if c =? Numeric then 10000 else 0
  | WHD _ => if c =? Hebrew_Letter then 10000 else 0
  end.
Definition is_nl (c : Z) : bool := (c =? LF) || (c =? Newline) || (c =? CR).
Definition wsecond (st : wstate) (c : Z) : Z :=
  let s := (if (c =? LF) || (c =? Newline) then -10000 else 0)
           + (if ignored c && negb (is_nl (snd st)) then 10000 else 0)
           + (if (snd st =? ZWJ) && (c =? Pictographic) then 10000 else 0)
           + wjoin (fst st) c in
  if s =? 0 then 10 else s.
Definition wtail (b : wbase) (c : Z) : list Z :=
  match b with
  | WCR => if c =? LF then [] else [-10000]
  | WAM m n => if ah c then repeat 0 (Z.to_nat (n - m)) ++ [10000] else []
  | WNM m n => if c =? Numeric then repeat 0 (Z.to_nat (n - m)) ++ [10000] else []
  | WHD _ => if c =? Hebrew_Letter then [10000] else []
  | _ => []
  end.
Definition wpens (st : wstate) (c : Z) : list Z := wfirst (fst st) c :: wsecond st c :: wtail (fst st) c.

Definition wvalid (b : wbase) : Prop :=
  match b with
  | WA n | WH n | WN n | WX n | WK n | WR n => 1 <= n
  | WAM m n | WNM m n => 2 <= m <= n
  | WHD n => 2 <= n
  | _ => True
  end.
Definition classes : list Z := [0; 1; 2; 3; 4; 5; 6; 7; 8; 9; 10; 11; 12; 13; 14; 15; 16; 17; 18; 999; 1001].

Lemma wbnext_valid b c : wvalid b -> wvalid (wbnext b c).
Proof.
  intros H. unfold wbnext.
  repeat match goal with |- context [if ?x then _ else _] => destruct x end; destruct b; simpl in *; auto; try lia;
  repeat match goal with |- context [if ?x then _ else _] => destruct x end; simpl; try lia; auto.
Qed.

(* ---- events do not depend on the order ---- *)
Definition wev (prev c : Z) (r : rec wlabel) : rec wlabel * list Z :=
  let '(_, r', p) := RuneEvent wstep 0 c (false, prev) r in (r', p).
(* what a recogniser does to the blocked flag *)
Definition weff (c : Z) (r : rec wlabel) : option bool :=
  match nextStep r with Some WB15 => Some true | Some WB15_end => if ignored c then None else Some false | _ => None end.
Lemma wev_step rune c blk prev r :
  RuneEvent wstep rune c (blk, prev) r =
  ((match weff c r with Some x => x | None => blk end, prev), fst (wev prev c r), snd (wev prev c r)).
Proof.
  unfold wev, weff, RuneEvent. destruct r as [e n ps [l|]]; [|reflexivity]. cbn [nextStep].
  destruct l; cbn [wstep snd fst]; try destruct (ignored c);
    repeat match goal with |- context [if ?x then _ else _] => destruct x end; reflexivity.
Qed.
Definition has_eff (c : Z) (r : rec wlabel) : bool := match weff c r with Some _ => true | None => false end.
Lemma wevents rune c prev x : forall l blk, Forall (fun r => weff c r = None \/ weff c r = Some x) l ->
  events (RuneEvent wstep rune c) (blk, prev) l = ((if existsb (has_eff c) l then x else blk, prev), map (wev prev c) l).
Proof.
  induction l as [|r l IH]; intros blk H; [reflexivity|]. inversion H; subst. cbn [events map existsb]. rewrite wev_step, IH by auto.
  unfold has_eff at 2. destruct H2 as [E|E]; rewrite E; cbn [orb]; destruct (wev prev c r); cbn [fst snd].
  - reflexivity.
  - destruct (existsb (has_eff c) l); reflexivity.
Qed.

Lemma subscribe_ok e : forall ls p, Inv Done p -> exists p', subscribe ls e p = Some p' /\ Inv Done p' /\
  Permutation (q p') (q p ++ map (NewRecognizer e) ls).
Proof.
  induction ls as [|l ls IH]; intros p I.
  - exists p. split; [reflexivity|]. rewrite app_nil_r. auto.
  - cbn [subscribe]. destruct (Push_ok Done p (NewRecognizer e l) I) as (p1 & E & I1 & P1). rewrite E. cbn [obind].
    destruct (IH p1 I1) as (p2 & E2 & I2 & P2). exists p2. split; [auto|]. split; [auto|].
    rewrite P2, P1. cbn [map app]. apply Permutation_middle.
Qed.

(* the breaker is in the summarised state *)
Definition in_state (b : wbreaker) (st : wstate) : Prop :=
  Inv Done (wpub b) /\ (exists e e', Permutation (q (wpub b)) (bag e e' st)) /\ wsh b = (is_WR (fst st), snd st).

Definition news (st : wstate) (c e : Z) : list (rec wlabel) :=
  if (c =? RI) && is_WR (fst st) then [] else map (NewRecognizer e) (rules c).

(* only three kinds of previous class matter *)
Definition repr (prev : Z) : Z := if is_nl prev then CR else if prev =? ZWJ then ZWJ else ALetter.
Lemma repr_nl prev : is_nl (repr prev) = is_nl prev.
Proof. unfold repr. destruct (is_nl prev) eqn:E; [reflexivity|]. destruct (prev =? ZWJ); reflexivity. Qed.
Lemma repr_zwj prev : (repr prev =? ZWJ) = (prev =? ZWJ).
Proof.
  unfold repr. destruct (Z.eqb_spec prev ZWJ) as [->|N]; [reflexivity|]. destruct (is_nl prev); reflexivity.
Qed.
Lemma repr_cases prev : repr prev = CR \/ repr prev = ZWJ \/ repr prev = ALetter.
Proof. unfold repr. destruct (is_nl prev); auto. destruct (prev =? ZWJ); auto. Qed.
Lemma wev_repr prev c r : wev prev c r = wev (repr prev) c r.
Proof.
  assert (E : forall x p, x && negb (p =? LF) && negb (p =? Newline) && negb (p =? CR) = x && negb (is_nl p)).
  { intros x p. unfold is_nl. destruct x, (p =? LF), (p =? Newline), (p =? CR); reflexivity. }
  unfold wev, RuneEvent. destruct r as [e n ps [l|]]; [|reflexivity]. cbn [nextStep].
  destruct l; cbn [wstep snd fst]; try reflexivity;
  try (destruct (ignored c); repeat match goal with |- context [if ?x then _ else _] => destruct x end; reflexivity).
  rewrite !E, repr_nl. destruct (ignored c && negb (is_nl prev)); reflexivity.
Qed.
Lemma bag_repr e e' b prev : bag e e' (b, prev) = bag e e' (b, repr prev).
Proof. unfold bag. cbn [fst snd]. now rewrite repr_zwj. Qed.
Lemma wpens_repr b prev c : wpens (b, prev) c = wpens (b, repr prev) c.
Proof. unfold wpens, wsecond. cbn [fst snd]. now rewrite repr_zwj, repr_nl. Qed.

Lemma longest_bag e e' st : wvalid (fst st) -> fold_right Z.max 0 (map MatchLength (bag e e' st)) = wlam st.
Proof.
  destruct st as [b prev]. unfold bag, wlam. cbn [fst snd]. intros H.
  destruct (prev =? ZWJ); destruct b; cbn [base_recs map app rc MatchLength matchLen fold_right base_len] in *; cbn [wvalid] in H; lia.
Qed.

(* the effect of a round on the bag, computed case by case *)
Ltac each_class H tac := unfold classes in H; repeat (destruct H as [<-|H]; [tac|]); contradiction.
Ltac pos_case n H := destruct n as [|n|n]; [cbn [wvalid] in H; lia| |cbn [wvalid] in H; lia].

Lemma step_bag b prev c e e' e2 : wvalid b -> In c classes -> prev = CR \/ prev = ZWJ \/ prev = ALetter ->
  let l := bag e e' (b, prev) ++ news (b, prev) c e2 in
  exists e1, filter (fun s => negb (Done s)) (map fst (map (wev prev c) l)) = bag e1 e2 (wnext (b, prev) c).
Proof.
  intros Hv Hc Hp l.
  assert (X : filter (fun s => negb (Done s)) (map fst (map (wev prev c) l)) = bag e e2 (wnext (b, prev) c) \/
              filter (fun s => negb (Done s)) (map fst (map (wev prev c) l)) = bag e2 e2 (wnext (b, prev) c)).
  { unfold l. destruct Hp as [-> | [-> | ->]];
    (destruct b as [| | |n|n|n|n|n|n|m n|m n|n];
     [ | | | pos_case n Hv | pos_case n Hv | pos_case n Hv | pos_case n Hv | pos_case n Hv | pos_case n Hv
     | pos_case n Hv; pos_case m Hv | pos_case n Hv; pos_case m Hv | pos_case n Hv ]);
    each_class Hc ltac:(first [left; vm_compute; reflexivity | right; vm_compute; reflexivity]). }
  destruct X as [X|X]; eauto.
Qed.

Lemma step_pens b prev c e e' e2 : wvalid b -> In c classes -> prev = CR \/ prev = ZWJ \/ prev = ALetter ->
  let l := bag e e' (b, prev) ++ news (b, prev) c e2 in
  setPenalty1 (sum_pens (map snd (map (wev prev c) l))) penalty999 = wpens (b, prev) c.
Proof.
  intros Hv Hc Hp l.
  unfold l. destruct Hp as [-> | [-> | ->]];
    (destruct b as [| | |n|n|n|n|n|n|m n|m n|n];
     [ | | | pos_case n Hv | pos_case n Hv | pos_case n Hv | pos_case n Hv | pos_case n Hv | pos_case n Hv
     | pos_case n Hv; pos_case m Hv | pos_case n Hv; pos_case m Hv | pos_case n Hv ]);
    each_class Hc ltac:(first [vm_compute; reflexivity | cbv -[mid_pens Z.sub sum_pens setPenalty1 wpens] ; unfold sum_pens; cbn [fold_left]; rewrite ?add_pens_nil; cbn [add_pens];
      unfold mid_pens, wpens; reflexivity ]).
Qed.

Ltac solve_eff := unfold bag, news; cbn; repeat (apply Forall_cons; [first [left; reflexivity | right; reflexivity]|]); apply Forall_nil.
Lemma step_blk b prev c e e' e2 : wvalid b -> In c classes -> prev = CR \/ prev = ZWJ \/ prev = ALetter ->
  let l := bag e e' (b, prev) ++ news (b, prev) c e2 in
  exists x, Forall (fun r => weff c r = None \/ weff c r = Some x) l /\
     (if existsb (has_eff c) l then x else is_WR b) = is_WR (wbnext b c).
Proof.
  intros Hv Hc Hp l.
  unfold l. destruct Hp as [-> | [-> | ->]];
    (destruct b as [| | |n|n|n|n|n|n|m n|m n|n];
     each_class Hc ltac:(first [exists true; split; [solve_eff|vm_compute; reflexivity] | exists false; split; [solve_eff|vm_compute; reflexivity]])).
Qed.

Lemma bag_alive e e' st : alive Done (bag e e' st).
Proof.
  unfold bag. apply Forall_app. split.
  - destruct (fst st); cbn; repeat constructor.
  - destruct (snd st =? ZWJ); repeat constructor.
Qed.
Lemma news_alive st c e : alive Done (news st c e).
Proof.
  unfold news. destruct (_ && _); [constructor|]. apply Forall_forall. intros r Hr. apply in_map_iff in Hr. destruct Hr as (l & <- & _). reflexivity.
Qed.

(* one round *)
Lemma round b st r c : wvalid (fst st) -> In c classes -> in_state b st ->
  exists b', (do b1 <- StartRulesFor c b; ProceedWithRune r c b1) = Some (b', wlam (wnext st c), wpens st c) /\ in_state b' (wnext st c).
Proof.
  intros Hv Hc (I & (e & e' & P) & Sh). destruct st as [s prev]. cbn [fst snd] in *.
  assert (S1 : exists p1, StartRulesFor c b = Some (mkwb p1 (wlong b) (wsh b)) /\ Inv Done p1 /\
     Permutation (q p1) (bag e e' (s, prev) ++ news (s, prev) c (wlong b))).
  { unfold StartRulesFor, news. rewrite Sh. cbn [fst snd]. destruct ((c =? RI) && is_WR s).
    - exists (wpub b). destruct b as [pb lo sh]. cbn [wpub wlong wsh] in *. subst sh. rewrite app_nil_r. auto.
    - destruct (subscribe_ok (wlong b) (rules c) (wpub b) I) as (p1 & E & I1 & P1). rewrite E. cbn [obind]. exists p1.
      split; [reflexivity|]. split; [auto|]. rewrite P1, P. reflexivity. }
  destruct S1 as (p1 & E1 & I1 & P1). rewrite E1. cbn [obind].
  set (l := bag e e' (s, prev) ++ news (s, prev) c (wlong b)) in *.
  assert (El : l = bag e e' (s, repr prev) ++ news (s, repr prev) c (wlong b)) by (unfold l; rewrite bag_repr; reflexivity).
  destruct (step_blk s (repr prev) c e e' (wlong b) Hv Hc (repr_cases prev)) as (x & Fx & Bx). rewrite <- El in Fx, Bx.
  destruct (step_bag s (repr prev) c e e' (wlong b) Hv Hc (repr_cases prev)) as (e1 & Bg). rewrite <- El in Bg.
  pose proof (step_pens s (repr prev) c e e' (wlong b) Hv Hc (repr_cases prev)) as Pn. cbn zeta in Pn. rewrite <- El in Pn.
  destruct (bag_round Done (RuneEvent wstep r c) MatchLength p1 l (wsh b)
     ((if existsb (has_eff c) l then x else is_WR s), prev) (wev prev c) I1) as (rel & p2 & E2 & I2 & P2).
  - apply Forall_app. split; [apply bag_alive|apply news_alive].
  - exact P1.
  - intros l' Pl. rewrite Sh. rewrite (wevents r c prev x).
    + assert (Ee : existsb (has_eff c) l' = existsb (has_eff c) l); [|now rewrite Ee].
      clear -Pl. induction Pl; cbn [existsb]; try congruence. destruct (has_eff c x), (has_eff c y); reflexivity.
    + eapply Permutation_Forall; eauto.
  - assert (Em : map (wev prev c) l = map (wev (repr prev) c) l) by (apply map_ext; intros; apply wev_repr).
    rewrite Em in E2, P2. rewrite Bg in P2.
    unfold ProceedWithRune. cbn [wpub wsh]. rewrite E2. cbn [obind fst snd].
    assert (Ln : longest_of Done MatchLength (map fst (map (wev (repr prev) c) l)) = wlam (wnext (s, prev) c)).
    { unfold longest_of. rewrite Bg. rewrite (longest_bag e1 (wlong b) (wnext (s, repr prev) c)); [reflexivity|]. cbn [wnext fst]. now apply wbnext_valid. }
    rewrite Ln, Pn, <- wpens_repr. rewrite Bx. eexists. split; [reflexivity|]. split; [exact I2|]. cbn [wpub wsh wnext fst snd]. split; eauto.
Qed.
