(* LineSum.v -- one round of the line breaker as a step on a summary of the past. *)
From Coq Require Import List ZArith Lia Bool Permutation.
From Verif Require Import Base PrioQ PrioQProofs Recognizer Bag Line.
Import ListNotations.
Open Scope Z_scope.

(* ---- what is left of the past ---- *)
Record fstate := mkf {
  fa : Z;       (* lastClass: sot or the class of the last rune after substitution *)
  fs : Z;       (* class before the run of spaces at the end, if a rule waits behind it (0: none) *)
  fodd : bool;  (* the rule for pairs of regional indicators waits *)
  fph : Z;      (* which function the recognisers of numbers are in: 2..5, 0 if there are none *)
  fhl : bool;   (* last rune: HY or BA behind HL *)
  fcrlf : bool  (* last rune: LF behind CR *)
}.
Definition st : Type := fstate * list Z.   (* and the match lengths of the recognisers of numbers *)
Definition f0 : fstate := mkf sot 0 false 0 false false.
Definition st0 : st := (f0, []).

Definition skippers : list Z := [ZW; OP; QU; CL; CP; B2].
Definition is_mark (c : Z) : bool := one_of c [CM; ZWJ].

(* Next summary, for a class before substitution (fnext) and after (fnext'). *)
Definition fnext' (f : fstate) (sub : bool) (c : Z) : fstate :=
  mkf (if c =? eot then sot else c)
      (if c =? SP then fs f else if one_of c skippers then c else 0)
      (if c =? RI then (if sub then true else negb (fodd f)) else false)
      (if one_of c [PR; PO] then 2 else if one_of c [OP; HY] then 3 else if c =? NU then 4
       else if one_of c [SY; IS] then (if fph f =? 4 then 4 else 0)
       else if one_of c [CL; CP] then (if fph f =? 4 then 5 else 0) else 0)
      ((fa f =? HL) && one_of c [HY; BA])
      ((fa f =? CR) && (c =? LF)).
Definition fnext (f : fstate) (rc : Z) : fstate := let c := substitute rc (fa f) in fnext' f (negb (rc =? c)) c.
(* the recognisers of numbers that go on *)
Definition moves (ph c : Z) : bool :=
  ((ph =? 2) && one_of c [OP; HY; NU]) || ((ph =? 3) && (c =? NU)) || ((ph =? 4) && one_of c [NU; SY; IS; CL; CP]).
Definition starts (c : Z) : bool := one_of c [PR; PO; OP; HY; NU].
Definition mnext (ph : Z) (ms : list Z) (c : Z) : list Z :=
  (if moves ph c then map (fun m => m + 1) ms else []) ++ (if starts c then [1] else []).
Definition lnext (s : st) (rc : Z) : st := (fnext (fst s) rc, mnext (fph (fst s)) (snd s) (substitute rc (fa (fst s)))).

(* ---- the recognisers ---- *)
Definition rc1 (m : Z) (l : llabel) : rec llabel := mkrec 0 m [] (Some l).
Definition base_labels (a : Z) : list llabel :=
  if a =? CR then [CRLF] else if a =? CP then [LB30_2_end] else if a =? EX then [LB22_end] else if a =? IS then [LB29_end]
  else if a =? SY then [LB21b_end] else if a =? AL then [LB22_end; LB23_1_end; LB24_2_end; LB28_end; LB30_1_end]
  else if a =? HL then [LB21a_end; LB22_end; LB23_1_end; LB24_2_end; LB28_end; LB30_1_end]
  else if a =? ID then [LB22_end; LB23a_2_end] else if a =? EB then [LB22_end; LB23a_2_end; LB30b_end] else if a =? EM then [LB22_end; LB23a_2_end]
  else if a =? IN then [LB22_end] else if a =? NU then [LB22_end; LB23_2_end; LB30_1_end]
  else if a =? PR then [LB23a_1_end; LB24_1_end; LB27_2_end] else if a =? PO then [LB24_1_end]
  else if a =? JL then [LB26_1_end; LB27_1_end] else if one_of a [JV; H2] then [LB26_2_end; LB27_1_end]
  else if one_of a [JT; H3] then [LB26_3_end; LB27_1_end] else [].
Definition skip_labels (s : Z) : list llabel :=
  if s =? ZW then [LB8_end] else if s =? OP then [LB14_end] else if s =? QU then [LB15_end]
  else if one_of s [CL; CP] then [LB16_end] else if s =? B2 then [LB17_end] else [].
Definition num_label (ph : Z) : llabel := if ph =? 2 then LB25_2 else if ph =? 3 then LB25_3 else if ph =? 4 then LB25_4 else LB25_5.
Definition fixed (f : fstate) : list (rec llabel) :=
  map (rc1 1) (base_labels (fa f) ++ skip_labels (fs f) ++ (if fodd f then [LB30a_end] else [])).
Definition nums (ph : Z) (ms : list Z) : list (rec llabel) := map (fun m => rc1 m (num_label ph)) ms.
Definition bag (s : st) : list (rec llabel) := fixed (fst s) ++ nums (fph (fst s)) (snd s).
Definition news (f : fstate) (c : Z) : list (rec llabel) := if (c =? RI) && fodd f then [] else map (rc1 0) (rules c).

(* ---- what one recogniser does ---- *)
Definition lev (last : Z) (sub : bool) (c : Z) (r : rec llabel) : rec llabel * list Z :=
  let '(_, r', p) := RuneEvent lstep 0 c (mksh false last sub) r in (r', p).
Definition leff (sub : bool) (c : Z) (r : rec llabel) : option bool :=
  match nextStep r with Some LB30a => Some true | Some LB30a_end => if (c =? RI) && sub then None else Some false | _ => None end.
Lemma lev_step rune c blk last sub r :
  RuneEvent lstep rune c (mksh blk last sub) r =
  (mksh (match leff sub c r with Some x => x | None => blk end) last sub, fst (lev last sub c r), snd (lev last sub c r)).
Proof.
  unfold lev, leff, RuneEvent. destruct r as [e n ps [l|]]; [|reflexivity]. cbn [nextStep].
  destruct l; cbn [lstep lastClass substituted blockedRI]; try reflexivity;
    repeat match goal with |- context [if ?x then _ else _] => destruct x end; reflexivity.
Qed.
Definition has_eff (sub : bool) (c : Z) (r : rec llabel) : bool := match leff sub c r with Some _ => true | None => false end.
Lemma levents rune c last sub x : forall l blk, Forall (fun r => leff sub c r = None \/ leff sub c r = Some x) l ->
  events (RuneEvent lstep rune c) (mksh blk last sub) l = (mksh (if existsb (has_eff sub c) l then x else blk) last sub, map (lev last sub c) l).
Proof.
  induction l as [|r l IH]; intros blk H; [reflexivity|]. inversion H; subst. cbn [events map existsb]. rewrite lev_step, IH by auto.
  unfold has_eff at 2. destruct H2 as [E|E]; rewrite E; cbn [orb]; destruct (lev last sub c r); cbn [fst snd].
  - reflexivity.
  - destruct (existsb (has_eff sub c) l); reflexivity.
Qed.

(* Expect is never read. *)
Definition norm (r : rec llabel) : rec llabel := mkrec 0 (matchLen r) (penalties r) (nextStep r).
Lemma lev_norm last sub c r : lev last sub c (norm r) = (norm (fst (lev last sub c r)), snd (lev last sub c r)).
Proof.
  unfold lev, RuneEvent, norm. destruct r as [e n ps [l|]]; [|reflexivity]. cbn [nextStep matchLen penalties].
  destruct l; cbn [lstep lastClass substituted blockedRI matchLen]; try reflexivity;
    repeat match goal with |- context [if ?x then _ else _] => destruct x end; reflexivity.
Qed.
Lemma norm_map last sub c l : map (lev last sub c) (map norm l) = map (fun x => (norm (fst x), snd x)) (map (lev last sub c) l).
Proof. rewrite !map_map. apply map_ext. intros r. apply lev_norm. Qed.
Lemma norm_pens last sub c l : map snd (map (lev last sub c) (map norm l)) = map snd (map (lev last sub c) l).
Proof. rewrite norm_map, map_map. reflexivity. Qed.
Lemma filter_norm l : filter (fun s => negb (Done s)) (map norm l) = map norm (filter (fun s => negb (Done s)) l).
Proof. induction l as [|r l IH]; [reflexivity|]. cbn [map filter]. change (Done (norm r)) with (Done r). destruct (Done r); cbn; rewrite IH; reflexivity. Qed.
Lemma norm_alive last sub c l : filter (fun s => negb (Done s)) (map fst (map (lev last sub c) (map norm l))) =
  map norm (filter (fun s => negb (Done s)) (map fst (map (lev last sub c) l))).
Proof. rewrite norm_map, map_map, <- filter_norm. f_equal. rewrite !map_map. reflexivity. Qed.

(* sums do not depend on the order *)
Lemma sum_pens_perm a b : Permutation a b -> sum_pens a = sum_pens b.
Proof.
  intros P. destruct (fold_pens a []) as [A1 A2], (fold_pens b []) as [B1 B2]. unfold sum_pens.
  apply nth_ext with (d := 0) (d' := 0).
  - rewrite A2, B2. f_equal. now apply max_len_perm.
  - intros n _. rewrite A1, B1. f_equal. now apply sum_at_perm.
Qed.

(* ---- classes ---- *)
Definition eclasses : list Z := [AL; B2; BA; BB; BK; CB; CL; CP; CR; EB; EM; EX; GL; H2; H3; HL; HY; ID; IN; IS; JL; JT; JV; LF; NL; NS; NU; OP; PO; PR; QU; RI; SP; SY; WJ; ZW; eot].
Definition rclasses : list Z := CM :: ZWJ :: eclasses.

Lemma in_dec (x : Z) l : In x l <-> one_of x l = true.
Proof.
  unfold one_of. rewrite existsb_exists. split.
  - intros H. exists x. split; auto. apply Z.eqb_refl.
  - intros (y & H & E). apply Z.eqb_eq in E. now subst.
Qed.
Definition allb {A} (l : list A) (f : A -> bool) : bool := forallb f l.
Lemma allb_in {A} (l : list A) f x : allb l f = true -> In x l -> f x = true.
Proof. unfold allb. intros H I. rewrite forallb_forall in H. auto. Qed.

(* ---- the summaries that occur ---- *)
Definition feats : list fstate :=
  f0 :: mkf SP 0 false 0 false false :: map (fun s => mkf SP s false 0 false false) skippers
  ++ map (fun a => mkf a a false 0 false false) [ZW; QU; CL; CP; B2] ++ map (fun a => mkf a a false 5 false false) [CL; CP]
  ++ [mkf OP OP false 3 false false; mkf HY 0 false 3 false false; mkf HY 0 false 3 true false; mkf BA 0 false 0 false false; mkf BA 0 false 0 true false;
      mkf LF 0 false 0 false false; mkf LF 0 false 0 false true; mkf RI 0 false 0 false false; mkf RI 0 true 0 false false;
      mkf PR 0 false 2 false false; mkf PO 0 false 2 false false; mkf NU 0 false 4 false false;
      mkf SY 0 false 0 false false; mkf SY 0 false 4 false false; mkf IS 0 false 0 false false; mkf IS 0 false 4 false false]
  ++ map (fun a => mkf a 0 false 0 false false) [AL; BB; BK; CB; CR; EB; EM; EX; GL; H2; H3; HL; ID; IN; JL; JT; JV; NL; NS; WJ].
Definition feqb (x y : fstate) : bool :=
  (fa x =? fa y) && (fs x =? fs y) && eqb (fodd x) (fodd y) && (fph x =? fph y) && eqb (fhl x) (fhl y) && eqb (fcrlf x) (fcrlf y).
Lemma feqb_eq x y : feqb x y = true -> x = y.
Proof.
  unfold feqb. rewrite !andb_true_iff. intros (((((A & B) & C) & D) & E) & F).
  apply Z.eqb_eq in A, B, D. apply eqb_prop in C, E, F. destruct x, y; cbn in *; congruence.
Qed.
Lemma fnext_feats f rc : In f feats -> In rc rclasses -> In (fnext f rc) feats.
Proof.
  intros Hf Hr. assert (X : allb feats (fun f => allb rclasses (fun rc => existsb (feqb (fnext f rc)) feats)) = true) by (vm_compute; reflexivity).
  apply (allb_in _ _ f) in X; auto. apply (allb_in _ _ rc) in X; auto. apply existsb_exists in X. destruct X as (y & I & E).
  apply feqb_eq in E. now rewrite E.
Qed.
(* one check over all summaries and classes *)
Lemma feats_all (P : fstate -> Z -> bool) : allb feats (fun f => allb rclasses (P f)) = true ->
  forall f rc, In f feats -> In rc rclasses -> P f rc = true.
Proof. intros X f rc Hf Hr. apply (allb_in _ _ f) in X; auto. apply (allb_in _ _ rc) in X; auto. Qed.
Ltac finite P := let X := fresh in assert (X : forall f rc, In f feats -> In rc rclasses -> P f rc = true) by (apply feats_all; vm_compute; reflexivity); apply X; assumption.

Definition sok (s : st) : Prop := In (fst s) feats /\ Forall (fun m => 1 <= m) (snd s) /\ (snd s = [] <-> fph (fst s) = 0) /\ (fph (fst s) = 2 -> snd s = [1]).
Lemma st0_ok : sok st0.
Proof. split; [left; reflexivity|]. split; [constructor|]. split; [split; reflexivity|discriminate]. Qed.
Lemma lnext_ok s rc : In rc rclasses -> sok s -> sok (lnext s rc).
Proof.
  intros Hr (Hf & Hm & H0 & H2). destruct s as [f ms]. cbn [fst snd] in *. unfold lnext. cbn [fst snd].
  split; [|split; [|split]]; cbn [fst snd].
  - now apply fnext_feats.
  - unfold mnext. apply Forall_app. split.
    + destruct (moves _ _); [|constructor]. apply Forall_forall. intros m Im. apply in_map_iff in Im. destruct Im as (m' & <- & Im).
      rewrite Forall_forall in Hm. specialize (Hm _ Im). lia.
    + destruct (starts _); [repeat constructor; lia|constructor].
  - set (P := fun f rc => let c := substitute rc (fa f) in eqb (fph (fnext f rc) =? 0) (negb (moves (fph f) c || starts c)) && negb (moves (fph f) c && (fph f =? 0))).
    assert (X : P f rc = true) by finite P. unfold P in X. cbv zeta in X. apply andb_prop in X. destruct X as [X Y]. apply eqb_prop in X.
    unfold mnext. destruct (moves (fph f) (substitute rc (fa f))) eqn:E; cbn [orb negb andb] in X, Y.
    + apply negb_true_iff, Z.eqb_neq in Y. apply Z.eqb_neq in X. split; [|intros; lia]. intros Z0. exfalso. apply Y, H0.
      destruct ms; [reflexivity|discriminate].
    + destruct (starts _); cbn in *; [apply Z.eqb_neq in X|apply Z.eqb_eq in X]; split; intros; try discriminate; auto; lia.
  - set (P := fun f rc => let c := substitute rc (fa f) in negb (fph (fnext f rc) =? 2) || (negb (moves (fph f) c) && starts c)).
    assert (X : P f rc = true) by finite P. unfold P in X. cbv zeta in X. intros E. rewrite E in X. cbn [Z.eqb Pos.eqb negb orb] in X.
    apply andb_prop in X. destruct X as [X Y]. apply negb_true_iff in X. unfold mnext. rewrite X, Y. reflexivity.
Qed.

(* ---- the bag after a round ---- *)
Definition live (last : Z) (sub : bool) (c : Z) (l : list (rec llabel)) : list (rec llabel) :=
  filter (fun s => negb (Done s)) (map fst (map (lev last sub c) l)).
Lemma live_app last sub c a b : live last sub c (a ++ b) = live last sub c a ++ live last sub c b.
Proof. unfold live. now rewrite !map_app, filter_app. Qed.

Definition llabel_dec (x y : llabel) : {x = y} + {x <> y}.
Proof. decide equality. Defined.
Definition rec_dec (x y : rec llabel) : {x = y} + {x <> y}.
Proof. repeat decide equality. Defined.
Fixpoint remove1 (x : rec llabel) (l : list (rec llabel)) : option (list (rec llabel)) :=
  match l with
  | [] => None
  | y :: r => if rec_dec x y then Some r else option_map (cons y) (remove1 x r)
  end.
Fixpoint permb (a b : list (rec llabel)) : bool :=
  match a with
  | [] => match b with [] => true | _ => false end
  | x :: r => match remove1 x b with Some b' => permb r b' | None => false end
  end.
Lemma remove1_perm x : forall l l', remove1 x l = Some l' -> Permutation (x :: l') l.
Proof.
  induction l as [|y l IH]; intros l' H; cbn in H; [discriminate|]. destruct (rec_dec x y) as [->|N].
  - inversion H. reflexivity.
  - destruct (remove1 x l) as [r|] eqn:E; cbn in H; inversion H; subst. rewrite perm_swap. constructor. auto.
Qed.
Lemma permb_perm : forall a b, permb a b = true -> Permutation a b.
Proof.
  induction a as [|x a IH]; intros b H; cbn in H.
  - destruct b; [constructor|discriminate].
  - destruct (remove1 x b) as [b'|] eqn:E; [|discriminate]. rewrite <- (remove1_perm _ _ _ E). constructor. auto.
Qed.

Definition phases : list Z := [2; 3; 4; 5].
Definition numph (c : Z) : Z := if one_of c [OP; HY] then 3 else if one_of c [NU; SY; IS] then 4 else 5.
Definition numpens (ph m c : Z) : list Z :=
  if one_of ph [4; 5] then ps 25 (if one_of c [PR; PO] then p 25 else 0) m else [].
Lemma lev_num last sub c m ph : In c eclasses -> In ph phases -> 1 <= m ->
  lev last sub c (rc1 m (num_label ph)) =
  if moves ph c then (rc1 (m + 1) (num_label (numph c)), [])
  else (mkrec 0 (if one_of ph [4; 5] then m + 1 else 0) (numpens ph m c) None, numpens ph m c).
Proof.
  intros Hc Hp Hm. destruct m as [|m|m]; [lia| |lia].
  unfold phases in Hp. repeat (destruct Hp as [<-|Hp]; [|]); try contradiction;
  (unfold eclasses in Hc; repeat (destruct Hc as [<-|Hc]; [|]); try contradiction; vm_compute; reflexivity).
Qed.
Lemma live_nums last sub c ms ph : In c eclasses -> In ph phases -> Forall (fun m => 1 <= m) ms ->
  live last sub c (nums ph ms) = if moves ph c then nums (numph c) (map (fun m => m + 1) ms) else [].
Proof.
  intros Hc Hp. induction ms as [|m ms IH]; intros Hm; [destruct (moves ph c); reflexivity|].
  inversion Hm; subst. specialize (IH H2). unfold live in *. cbn [nums map filter].
  change (map (fun m0 => rc1 m0 (num_label ph)) ms) with (nums ph ms). rewrite lev_num by auto.
  destruct (moves ph c); cbn [fst filter]; cbn [Done nextStep rc1 negb]; rewrite IH; reflexivity.
Qed.
Definition fsub (f : fstate) (rc : Z) : bool := negb (rc =? substitute rc (fa f)).
Definition fcl (f : fstate) (rc : Z) : Z := substitute rc (fa f).
Lemma fcl_in f rc : In f feats -> In rc rclasses -> In (fcl f rc) eclasses.
Proof. intros Hf Hr. apply in_dec. set (P := fun f rc => one_of (fcl f rc) eclasses). change (P f rc = true). finite P. Qed.
Lemma live_fixed f rc : In f feats -> In rc rclasses ->
  Permutation (live (fa f) (fsub f rc) (fcl f rc) (fixed f ++ news f (fcl f rc)))
    (fixed (fnext f rc) ++ nums (fph (fnext f rc)) (if starts (fcl f rc) then [1] else [])).
Proof.
  intros Hf Hr. apply permb_perm.
  set (P := fun f rc => permb (live (fa f) (fsub f rc) (fcl f rc) (fixed f ++ news f (fcl f rc)))
    (fixed (fnext f rc) ++ nums (fph (fnext f rc)) (if starts (fcl f rc) then [1] else []))).
  change (P f rc = true). finite P.
Qed.
Lemma phases_in f : In f feats -> fph f <> 0 -> In (fph f) phases.
Proof.
  intros Hf N. assert (X : allb feats (fun f => (fph f =? 0) || one_of (fph f) phases) = true) by (vm_compute; reflexivity).
  apply (allb_in _ _ f) in X; auto. apply orb_prop in X. destruct X as [X|X]; [apply Z.eqb_eq in X; lia|now apply in_dec].
Qed.
Lemma live_bag s rc : sok s -> In rc rclasses ->
  Permutation (live (fa (fst s)) (fsub (fst s) rc) (fcl (fst s) rc) (bag s ++ news (fst s) (fcl (fst s) rc))) (bag (lnext s rc)).
Proof.
  intros (Hf & Hm & H0 & _) Hr. destruct s as [f ms]. unfold bag, lnext. cbn [fst snd] in *.
  pose proof (fcl_in f rc Hf Hr) as Hc. pose proof (live_fixed f rc Hf Hr) as L. rewrite live_app in L.
  rewrite !live_app, <- app_assoc. rewrite (Permutation_app_comm (live _ _ _ (nums _ _))), app_assoc, L, <- app_assoc.
  apply Permutation_app_head. change (substitute rc (fa f)) with (fcl f rc). unfold mnext.
  assert (X : live (fa f) (fsub f rc) (fcl f rc) (nums (fph f) ms) = nums (fph (fnext f rc)) (if moves (fph f) (fcl f rc) then map (fun m => m + 1) ms else [])).
  { destruct (Z.eq_dec (fph f) 0) as [E|N].
    - apply H0 in E. subst ms. destruct (moves _ _); reflexivity.
    - rewrite live_nums by (auto using phases_in). destruct (moves (fph f) (fcl f rc)) eqn:M; [|reflexivity]. f_equal.
      set (P := fun f rc => negb (moves (fph f) (fcl f rc)) || (numph (fcl f rc) =? fph (fnext f rc))).
      assert (X : P f rc = true) by finite P. unfold P in X. rewrite M in X. cbn [negb orb] in X. now apply Z.eqb_eq. }
  rewrite X. unfold nums. rewrite map_app. apply Permutation_app_comm.
Qed.

(* the flag of the rule for regional indicators *)
Lemma has_nums sub c ph ms : existsb (has_eff sub c) (nums ph ms) = false /\ Forall (fun r => leff sub c r = None) (nums ph ms).
Proof.
  assert (X : forall m, leff sub c (rc1 m (num_label ph)) = None).
  { intros m. unfold num_label. repeat match goal with |- context [if ?x then _ else _] => destruct x end; reflexivity. }
  split.
  - induction ms as [|m ms IH]; [reflexivity|]. cbn [nums map existsb]. unfold has_eff at 1. rewrite X. exact IH.
  - apply Forall_forall. intros r Hr. apply in_map_iff in Hr. destruct Hr as (m & <- & _). apply X.
Qed.
Definition eff_ok (x : bool) (o : option bool) : bool := match o with None => true | Some y => eqb x y end.
Lemma blocked f ms rc : In f feats -> In rc rclasses ->
  Forall (fun r => leff (fsub f rc) (fcl f rc) r = None \/ leff (fsub f rc) (fcl f rc) r = Some (negb (fodd f))) (bag (f, ms) ++ news f (fcl f rc)) /\
  (if existsb (has_eff (fsub f rc) (fcl f rc)) (bag (f, ms) ++ news f (fcl f rc)) then negb (fodd f) else fodd f) = fodd (fnext f rc).
Proof.
  intros Hf Hr. destruct (has_nums (fsub f rc) (fcl f rc) (fph f) ms) as [N1 N2]. unfold bag. cbn [fst snd].
  set (P := fun f rc => forallb (fun r => eff_ok (negb (fodd f)) (leff (fsub f rc) (fcl f rc) r)) (fixed f ++ news f (fcl f rc)) &&
     eqb (if existsb (has_eff (fsub f rc) (fcl f rc)) (fixed f ++ news f (fcl f rc)) then negb (fodd f) else fodd f) (fodd (fnext f rc))).
  assert (X : P f rc = true) by finite P. unfold P in X. apply andb_prop in X. destruct X as [X Y]. apply eqb_prop in Y. split.
  - rewrite forallb_forall in X. apply Forall_forall. intros r Hin. rewrite Forall_forall in N2. specialize (N2 r).
    assert (Z0 : In r (fixed f ++ news f (fcl f rc)) \/ In r (nums (fph f) ms)).
    { rewrite !in_app_iff in Hin. rewrite in_app_iff. tauto. }
    destruct Z0 as [Z0|Z0]; [|left; auto]. specialize (X _ Z0). destruct (leff _ _ r); [right|left; auto]. cbn in X. apply eqb_prop in X. now subst.
  - rewrite !existsb_app in *. rewrite N1, orb_false_r. exact Y.
Qed.

Lemma fixed_alive f : alive Done (fixed f).
Proof. apply Forall_forall. intros r Hr. apply in_map_iff in Hr. destruct Hr as (l & <- & _). reflexivity. Qed.
Lemma bag_alive s : alive Done (bag s).
Proof.
  unfold bag. apply Forall_app. split; [apply fixed_alive|]. apply Forall_forall. intros r Hr. apply in_map_iff in Hr. destruct Hr as (l & <- & _). reflexivity.
Qed.
Lemma news_alive f c : alive Done (news f c).
Proof. unfold news. destruct (_ && _); [constructor|]. apply Forall_forall. intros r Hr. apply in_map_iff in Hr. destruct Hr as (l & <- & _). reflexivity. Qed.

Lemma subscribe_ok e : forall ls p, Inv Done p -> exists p', subscribe ls e p = Some p' /\ Inv Done p' /\
  Permutation (q p') (q p ++ map (NewRecognizer e) ls).
Proof.
  induction ls as [|l ls IH]; intros p I.
  - exists p. split; [reflexivity|]. rewrite app_nil_r. auto.
  - cbn [subscribe]. destruct (Push_ok Done p (NewRecognizer e l) I) as (p1 & E & I1 & P1). rewrite E. cbn [obind].
    destruct (IH p1 I1) as (p2 & E2 & I2 & P2). exists p2. split; [auto|]. split; [auto|].
    rewrite P2, P1. cbn [map app]. apply Permutation_middle.
Qed.

(* ---- one round ---- *)
Definition in_state (b : lbreaker) (s : st) : Prop :=
  Inv Done (lpub b) /\ Permutation (map norm (q (lpub b))) (bag s) /\ blockedRI (lsh b) = fodd (fst s) /\ lastClass (lsh b) = fa (fst s).
Definition llam (s : st) : Z := Z.max 1 (fold_right Z.max 0 (snd s)).
Definition all_pens (s : st) (rc : Z) : list (list Z) :=
  map snd (map (lev (fa (fst s)) (fsub (fst s) rc) (fcl (fst s) rc)) (bag s ++ news (fst s) (fcl (fst s) rc))).
Definition lpens (s : st) (rc : Z) : list Z :=
  map lift1 (patch (fsub (fst s) rc && (fa (fst s) =? fcl (fst s) rc)) (sum_pens (all_pens s rc))).

Lemma norm_len l : map MatchLength (map norm l) = map MatchLength l.
Proof. rewrite map_map. apply map_ext. reflexivity. Qed.
Lemma maxlen_bag s : In (fst s) feats -> Z.max 1 (fold_right Z.max 0 (map MatchLength (bag s))) = llam s.
Proof.
  intros Hf. unfold llam, bag. rewrite map_app, fold_right_app.
  assert (E : map MatchLength (nums (fph (fst s)) (snd s)) = snd s).
  { unfold nums. rewrite map_map. cbn. apply map_id. }
  rewrite E. set (x := fold_right Z.max 0 (snd s)). unfold fixed.
  assert (G : forall l, Z.max 1 (fold_right Z.max x (map MatchLength (map (rc1 1) l))) = Z.max 1 x).
  { induction l as [|a l IH]; [reflexivity|]. cbn [map fold_right MatchLength rc1 matchLen]. lia. }
  apply G.
Qed.
Lemma alive_norm l : alive Done (map norm l) -> alive Done l.
Proof.
  unfold alive. rewrite !Forall_forall. intros H x Hx. change (Done x) with (Done (norm x)). apply H. now apply in_map.
Qed.

Lemma round b s r rc : sok s -> In rc rclasses -> in_state b s ->
  let c := fcl (fst s) rc in
  exists b', (do b1 <- StartRulesFor c (mklb (lpub b) (llong b) (mksh (blockedRI (lsh b)) (lastClass (lsh b)) (negb (rc =? c)))); ProceedWithRune r c b1)
     = Some (b', llam (lnext s rc), lpens s rc) /\ in_state b' (lnext s rc).
Proof.
  intros Hs Hr (I & P & Bk & La) c. pose proof Hs as (Hf & _). set (f := fst s) in *.
  rewrite Bk, La. set (sub := negb (rc =? c)). set (sh := mksh (fodd f) (fa f) sub).
  assert (S1 : exists p1, StartRulesFor c (mklb (lpub b) (llong b) sh) = Some (mklb p1 (llong b) sh) /\ Inv Done p1 /\
     Permutation (map norm (q p1)) (bag s ++ news f c)).
  { unfold StartRulesFor, news. cbn [lsh lpub llong blockedRI sh]. destruct ((c =? RI) && fodd f).
    - exists (lpub b). rewrite app_nil_r. auto.
    - destruct (subscribe_ok c (rules c) (lpub b) I) as (p1 & E & I1 & P1). rewrite E. cbn [obind]. exists p1.
      split; [reflexivity|]. split; [auto|]. rewrite P1, map_app, P. apply Permutation_app_head. rewrite map_map. reflexivity. }
  destruct S1 as (p1 & E1 & I1 & P1). rewrite E1. cbn [obind].
  destruct (blocked f (snd s) rc Hf Hr) as (Fx & Bx). rewrite <- surjective_pairing in Fx, Bx || idtac.
  assert (Es : (f, snd s) = s) by (unfold f; symmetry; apply surjective_pairing). rewrite Es in Fx, Bx.
  assert (Pe : forall l', Permutation (q p1) l' -> events (RuneEvent lstep r c) sh l' = (mksh (fodd (fnext f rc)) (fa f) sub, map (lev (fa f) sub c) l')).
  { intros l' Pl. unfold sh. rewrite (levents r c (fa f) sub (negb (fodd f))).
    - assert (Pn : Permutation (map norm l') (bag s ++ news f c)) by (rewrite <- P1; apply Permutation_map; now symmetry).
      assert (Q : forall a b0, Permutation a b0 -> existsb (has_eff sub c) a = existsb (has_eff sub c) b0).
      { intros a b0 Pl0. induction Pl0; cbn [existsb]; try congruence. destruct (has_eff sub c x), (has_eff sub c y); reflexivity. }
      assert (Q2 : forall l0, existsb (has_eff sub c) (map norm l0) = existsb (has_eff sub c) l0).
      { induction l0 as [|x l0 IH]; [reflexivity|]. cbn [map existsb]. rewrite IH. reflexivity. }
      rewrite <- Q2, (Q _ _ Pn). change (fsub f rc) with sub in Bx. change (fcl f rc) with c in Bx. rewrite Bx. reflexivity.
    - apply Forall_forall. intros x Hx. change (leff sub c x) with (leff sub c (norm x)).
      rewrite Forall_forall in Fx. apply Fx. eapply Permutation_in; [exact P1|]. apply in_map. eapply Permutation_in; [symmetry; exact Pl|auto]. }
  destruct (bag_round Done (RuneEvent lstep r c) MatchLength p1 (q p1) sh
     (mksh (fodd (fnext f rc)) (fa f) sub) (lev (fa f) sub c) I1) as (rel & p2 & E2 & I2 & P2).
  - apply alive_norm. unfold alive. eapply Permutation_Forall; [symmetry; exact P1|]. apply Forall_app. split; [apply bag_alive|apply news_alive].
  - reflexivity.
  - exact Pe.
  - unfold ProceedWithRune. cbn [lpub lsh]. rewrite E2. cbn [obind substituted lastClass blockedRI].
    assert (B2 : Permutation (map norm (q p2)) (bag (lnext s rc))).
    { rewrite P2, <- norm_alive. rewrite <- (live_bag s rc Hs Hr). unfold live. apply filter_perm. apply Permutation_map, Permutation_map. exact P1. }
    assert (Ln : Z.max 1 (longest_of Done MatchLength (map fst (map (lev (fa f) sub c) (q p1)))) = llam (lnext s rc)).
    { rewrite <- maxlen_bag by (apply (lnext_ok s rc Hr Hs)). f_equal. unfold longest_of.
      rewrite <- norm_len, <- norm_alive. 
      assert (Q : forall a b0, Permutation a b0 -> fold_right Z.max 0 a = fold_right Z.max 0 b0).
      { intros a b0 Pl0. induction Pl0; cbn [fold_right]; lia. }
      apply Q. rewrite <- (live_bag s rc Hs Hr). apply Permutation_map. unfold live. apply filter_perm. apply Permutation_map, Permutation_map. exact P1. }
    rewrite Ln. eexists. split.
    + do 2 f_equal. unfold lpens, all_pens. fold f. change (fcl f rc) with c. change (fsub f rc) with sub. f_equal. f_equal.
      rewrite <- norm_pens. apply sum_pens_perm. apply Permutation_map, Permutation_map. exact P1.
    + split; [exact I2|]. cbn [lpub lsh]. split; [exact B2|]. split; [reflexivity|]. reflexivity.
Qed.
