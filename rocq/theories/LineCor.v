(* LineCor.v -- the verdict of the line breaker is that of LineSpec. *)
From Coq Require Import List ZArith Lia Bool Permutation.
From Verif Require Import Base PrioQ PrioQProofs Recognizer Bag Segmenter SegSpec SegProofs SegInv SegNext SegCut BreakSpec BreakFacade SegWeak Rows SegEager Line LineSum LineVerdict LineSpec.
Import ListNotations.
Open Scope Z_scope.

(* ---- the summary, read off the units ---- *)
Fixpoint skipper_of (us : list (Z * bool)) : Z :=
  match us with (c, _) :: r => if c =? SP then skipper_of r else if one_of c skippers then c else 0 | [] => 0 end.
Definition phase_of (us : list (Z * bool)) : Z :=
  match us with
  | (c, m) :: r => if one_of c [PR; PO] then 2 else if one_of c [OP; HY] then 3 else if c =? NU then 4
      else if one_of c [SY; IS] then (if in_number r then 4 else 0)
      else if one_of c [CL; CP] then (if negb m && in_number r then 5 else 0) else 0
  | [] => 0
  end.
Definition feat_of (us : list (Z * bool)) : fstate :=
  mkf (last_class us) (skipper_of us) (odd_ri_code us) (phase_of us) (bare us && is_cls [HY; BA] us && is_cls [HL] (tl us))
      (bare us && is_cls [LF] us && is_cls [CR] (tl us)).

Lemma eclasses_mark c : In c eclasses -> mark c = false.
Proof. intros H. assert (X : allb eclasses (fun c => negb (mark c)) = true) by (vm_compute; reflexivity). apply (allb_in _ _ c) in X; auto. now apply negb_true_iff. Qed.
Lemma rclasses_split c : In c rclasses -> mark c = true /\ (c = CM \/ c = ZWJ) \/ mark c = false /\ In c eclasses.
Proof. intros [<-|[<-|H]]; [left; auto|left; auto|right; split; [now apply eclasses_mark|auto]]. Qed.
Lemma AL_in : In AL eclasses.
Proof. left. reflexivity. Qed.
Lemma units_in l : Forall (fun c => In c rclasses) l -> Forall (fun u => In (fst u) eclasses) (units l).
Proof.
  induction 1 as [|c l Hc Hl IH]; [constructor|]. cbn [units]. destruct (rclasses_split c Hc) as [[M _]|[M H]]; rewrite M.
  - destruct (units l) as [|u us]; [constructor; [apply AL_in|constructor]|]. inversion IH; subst. destruct (takes u); [constructor; auto|constructor; [apply AL_in|constructor; auto]].
  - constructor; auto.
Qed.
Lemma phase_4 us : (phase_of us =? 4) = in_number us.
Proof.
  destruct us as [|[c m] r]; [reflexivity|]. unfold phase_of. cbn [in_number].
  destruct (one_of c [PR; PO]) eqn:E1.
  { apply in_dec in E1. destruct E1 as [<-|[<-|[]]]; reflexivity. }
  destruct (one_of c [OP; HY]) eqn:E2.
  { apply in_dec in E2. destruct E2 as [<-|[<-|[]]]; reflexivity. }
  destruct (c =? NU); [reflexivity|]. destruct (one_of c [SY; IS]); [destruct (in_number r); reflexivity|].
  destruct (one_of c [CL; CP]); [destruct (negb m && in_number r); reflexivity|reflexivity].
Qed.
Lemma substitute_mark c x : mark c = true -> substitute c x = if one_of x [sot; BK; CR; LF; NL; SP; ZW] then AL else x.
Proof. intros M. unfold substitute. unfold mark in M. now rewrite M. Qed.
Lemma substitute_plain c x : mark c = false -> substitute c x = c.
Proof. intros M. unfold substitute. unfold mark in M. now rewrite M. Qed.
Lemma takes_last u us : In (fst u) eclasses -> one_of (last_class (u :: us)) [sot; BK; CR; LF; NL; SP; ZW] = negb (takes u).
Proof.
  intros H. destruct u as [c m]. cbn [fst] in H. unfold takes. cbn [fst last_class]. apply eqb_prop.
  assert (X : allb eclasses (fun c => eqb (one_of (if c =? eot then sot else c) [sot; BK; CR; LF; NL; SP; ZW]) (negb (negb (one_of c (hard ++ [SP; ZW; eot]))))) = true) by (vm_compute; reflexivity).
  apply (allb_in _ _ c) in X; auto.
Qed.
Lemma takes_not u : takes u = true -> (fst u =? eot) = false /\ (fst u =? SP) = false /\ (fst u =? LF) = false /\ (fst u =? CR) = false.
Proof.
  unfold takes. intros H. apply negb_true_iff in H. rewrite <- !not_true_iff_false in *. rewrite !Z.eqb_eq.
  repeat split; intros E; apply H; rewrite E; reflexivity.
Qed.
Lemma last_class_eq us cs : last_class us <> sot -> is_cls cs us = one_of (last_class us) cs.
Proof. destruct us as [|[c m] r]; cbn [last_class is_cls]; [congruence|]. destruct (Z.eqb_spec c eot); congruence. Qed.
Lemma last_class_is us c : c <> sot -> c <> eot -> (last_class us =? c) = is_cls [c] us.
Proof.
  intros N1 N2. destruct us as [|[x m] r]; cbn [last_class is_cls].
  - apply Z.eqb_neq. congruence.
  - unfold one_of. cbn [existsb]. rewrite orb_false_r. destruct (Z.eqb_spec x eot) as [->|]; [|reflexivity]. destruct (Z.eqb_spec sot c), (Z.eqb_spec eot c); congruence.
Qed.

(* a class that is not a combining mark *)
Lemma feat_plain us c : mark c = false -> fnext (feat_of us) c = feat_of ((c, false) :: us).
Proof.
  intros M. unfold fnext. rewrite substitute_plain, Z.eqb_refl by auto. cbn [negb].
  unfold fnext', feat_of. cbn [fa fs fodd fph last_class skipper_of odd_ri_code phase_of bare is_cls tl negb andb orb]. f_equal.
  - rewrite phase_4. reflexivity.
  - rewrite last_class_is by (vm_compute; discriminate). apply andb_comm.
  - rewrite last_class_is by (vm_compute; discriminate). rewrite andb_comm. f_equal. unfold one_of. cbn. now rewrite orb_false_r.
Qed.
Lemma feat_mark us c u : mark c = true -> (forall v, us = v :: tl us -> In (fst v) eclasses) -> us = u :: tl us -> takes u = true ->
  fnext (feat_of us) c = feat_of ((fst u, true) :: tl us).
Proof.
  intros M Hin Eu T. specialize (Hin u Eu). rewrite Eu. set (r := tl us). cbn [tl]. clearbody r. clear Eu us. destruct u as [x m]. cbn [fst] in *.
  unfold fnext. change (fa (feat_of ((x, m) :: r))) with (last_class ((x, m) :: r)). rewrite substitute_mark, takes_last, T by auto. cbn [negb].
  destruct (takes_not _ T) as (N1 & N2 & N3 & N4). cbn [fst] in *. cbn [last_class]. rewrite N1.
  assert (Cx : (c =? x) = false).
  { apply Z.eqb_neq. intros ->. rewrite (eclasses_mark x Hin) in M. discriminate. }
  rewrite Cx. cbn [negb]. unfold fnext', feat_of. cbn [fa fs fodd fph last_class skipper_of odd_ri_code phase_of bare is_cls tl negb andb orb]. rewrite N1, N2, N3, N4. f_equal.
  - destruct (one_of x [PR; PO]) eqn:E1; [reflexivity|]. destruct (one_of x [OP; HY]) eqn:E2; [reflexivity|]. destruct (x =? NU) eqn:E3; [reflexivity|].
    destruct (one_of x [SY; IS]) eqn:E4; [destruct (in_number r); reflexivity|]. destruct (one_of x [CL; CP]) eqn:E5; [|reflexivity].
    destruct (negb m && in_number r); reflexivity.
  - destruct (Z.eqb_spec x HL) as [->|]; reflexivity.
Qed.
Lemma feat_alone us c : mark c = true -> Forall (fun u => In (fst u) eclasses) us -> match us with u :: _ => takes u = false | [] => True end ->
  fnext (feat_of us) c = feat_of ((AL, false) :: us).
Proof.
  intros M Hin H. unfold fnext. change (fa (feat_of us)) with (last_class us).
  assert (S : substitute c (last_class us) = AL).
  { rewrite substitute_mark by auto. destruct us as [|u us]; [reflexivity|]. inversion Hin; subst. rewrite takes_last, H by auto. reflexivity. }
  rewrite S. unfold fnext', feat_of. cbn [fa fs fodd fph last_class skipper_of odd_ri_code phase_of bare is_cls tl negb andb orb].
  rewrite !andb_false_r. reflexivity.
Qed.
Lemma feat_units l : Forall (fun c => In c rclasses) l -> forall s, fst s = f0 -> fst (run lnext s (rev l)) = feat_of (units l).
Proof.
  induction 1 as [|c l Hc Hl IH]; intros s Hs; [exact Hs|]. cbn [rev]. rewrite run_app. cbn [run fold_left lnext fst].
  fold (run lnext s (rev l)). rewrite (IH s Hs). cbn [units]. pose proof (units_in l Hl) as Hu.
  destruct (rclasses_split c Hc) as [[M _]|[M H]]; rewrite M; [|now apply feat_plain].
  destruct (units l) as [|u us] eqn:E; [apply feat_alone; auto|].
  destruct (takes u) eqn:T.
  - rewrite (feat_mark (u :: us) c u); auto. intros v Hv. inversion Hv; subst. now inversion Hu.
  - apply feat_alone; auto.
Qed.

(* ---- the verdict is the decision ---- *)
Definition ctx_of (f : fstate) (rc d : Z) : ctx :=
  mkctx (fa f) (fs f) (if mark rc then AL else rc) (mark rc && negb (one_of (fa f) [sot; BK; CR; LF; NL; SP; ZW])) false (fhl f) (fodd f)
        (fph f =? 4) (one_of (fph f) [4; 5]) (d =? NU).
Lemma verdict_decide f rc d : In f feats -> In rc rclasses -> verdict f rc d = decide (ctx_of f rc d).
Proof.
  intros Hf Hr. apply eqb_prop.
  assert (E1 : verdict f rc d = verdict f rc (if d =? NU then NU else 0)).
  { unfold verdict. destruct (d =? NU); reflexivity. }
  assert (E2 : ctx_of f rc d = ctx_of f rc (if d =? NU then NU else 0)).
  { unfold ctx_of. destruct (d =? NU); reflexivity. }
  rewrite E1, E2.
  assert (X : forall f rc, In f feats -> In rc rclasses -> eqb (verdict f rc NU) (decide (ctx_of f rc NU)) && eqb (verdict f rc 0) (decide (ctx_of f rc 0)) = true).
  { apply feats_all. vm_compute. reflexivity. }
  specialize (X f rc Hf Hr). apply andb_prop in X. destruct X as [X1 X2]. destruct (d =? NU); [exact X1|exact X2].
Qed.

Definition known (s : Z) : Z := if one_of s skippers then s else 0.
Lemma known_eqb s c : In c skippers -> (known s =? c) = (s =? c).
Proof.
  intros H. unfold known. destruct (one_of s skippers) eqn:E; [reflexivity|]. destruct (Z.eqb_spec s c) as [->|].
  - apply in_dec in H. congruence.
  - apply Z.eqb_neq. intros <-. apply in_dec in H. discriminate.
Qed.
Lemma decide_s a s b k z h o n c x : decide (mkctx a (known s) b k z h o n c x) = decide (mkctx a s b k z h o n c x).
Proof.
  unfold decide. cbn [cb cs_ ca cmark czwj chl codd cnum cnumc cnext].
  assert (E : forall u v, In u skippers -> In v skippers -> one_of (known s) [u; v] = one_of s [u; v]).
  { intros u v Hu Hv. unfold one_of. cbn [existsb]. now rewrite !known_eqb. }
  rewrite E, !known_eqb by (apply in_dec; reflexivity). reflexivity.
Qed.
Lemma skipper_known us : skipper_of us = known (nonspace us).
Proof. induction us as [|[c m] r IH]; [reflexivity|]. cbn [skipper_of nonspace]. destruct (c =? SP); [exact IH|reflexivity]. Qed.
Lemma phase_45 us : one_of (phase_of us) [4; 5] = in_number us || bare us && is_cls [CL; CP] us && in_number (tl us).
Proof.
  rewrite <- phase_4. unfold one_of at 1. cbn [existsb]. rewrite orb_false_r. f_equal.
  destruct us as [|[c m] r]; [reflexivity|]. unfold phase_of. cbn [bare is_cls tl].
  destruct (one_of c [PR; PO]) eqn:E1.
  { apply in_dec in E1. destruct E1 as [<-|[<-|[]]]; destruct m; reflexivity. }
  destruct (one_of c [OP; HY]) eqn:E2.
  { apply in_dec in E2. destruct E2 as [<-|[<-|[]]]; destruct m; reflexivity. }
  destruct (Z.eqb_spec c NU) as [->|]; [destruct m; reflexivity|].
  destruct (one_of c [SY; IS]) eqn:E3.
  { apply in_dec in E3. destruct E3 as [<-|[<-|[]]]; destruct m, (in_number r); reflexivity. }
  destruct (one_of c [CL; CP]), m, (in_number r); reflexivity.
Qed.
Lemma belongs_last us b : Forall (fun u => In (fst u) eclasses) us -> mark b && negb (one_of (last_class us) [sot; BK; CR; LF; NL; SP; ZW]) = belongs us b.
Proof.
  intros H. unfold belongs. destruct us as [|u us]; [destruct (mark b); reflexivity|]. inversion H; subst. now rewrite takes_last, negb_involutive by auto.
Qed.
Lemma verdict_code l b d r : Forall (fun c => In c rclasses) l -> In b rclasses -> (d =? NU) = (hd sot r =? NU) ->
  verdict (fst (run lnext st0 (rev l))) b d = code_break l (b :: r).
Proof.
  intros Hl Hb Hd. rewrite verdict_decide; auto.
  - rewrite (feat_units l Hl st0 eq_refl). unfold code_break, code_ctx, ctx_of, feat_of. cbn [fa fs fhl fodd fph hd tl].
    rewrite belongs_last by (now apply units_in). rewrite skipper_known, phase_4, phase_45, Hd, decide_s. reflexivity.
  - apply run_ok; [apply st0_ok|]. now apply Forall_rev.
Qed.
Lemma decide_eot l d : Forall (fun c => In c rclasses) l -> verdict (fst (run lnext st0 (rev l))) eot d = true.
Proof.
  intros Hl. rewrite verdict_decide; [reflexivity| |apply in_dec; reflexivity]. apply run_ok; [apply st0_ok|]. now apply Forall_rev.
Qed.

Lemma LV_code cs j : Forall (fun c => In c rclasses) cs -> (j < length cs)%nat ->
  LV cs j = match skipn (S j) cs with [] => true | t => code_break (rev (firstn (S j) cs)) t end.
Proof.
  intros H Hj. unfold LV, sat.
  assert (F : firstn (S j) (cs ++ [eot]) = rev (rev (firstn (S j) cs))).
  { rewrite rev_involutive, firstn_app. replace (S j - length cs)%nat with 0%nat by lia. cbn [firstn]. now rewrite app_nil_r. }
  assert (Hf : Forall (fun c => In c rclasses) (rev (firstn (S j) cs))).
  { apply Forall_rev. apply Forall_forall. intros x Hx. rewrite Forall_forall in H. apply H. rewrite <- (firstn_skipn (S j) cs). apply in_or_app; auto. }
  rewrite F. destruct (skipn (S j) cs) as [|b t] eqn:E.
  - assert (L : S j = length cs) by (pose proof (skipn_length (S j) cs) as X; rewrite E in X; cbn in X; lia).
    replace (nth (S j) (cs ++ [eot]) 0) with eot; [now apply decide_eot|]. rewrite app_nth2, L, Nat.sub_diag by lia. reflexivity.
  - assert (N : forall i d, nth i (b :: t) d = nth (S j + i) cs d).
    { intros i d. rewrite <- E. clear. revert cs. generalize (S j). induction n as [|n IH]; intros cs; [reflexivity|]. destruct cs; [destruct i; reflexivity|]. cbn [skipn plus nth]. apply IH. }
    assert (L : (S j < length cs)%nat) by (pose proof (skipn_length (S j) cs) as X; rewrite E in X; cbn in X; lia).
    assert (B : nth (S j) (cs ++ [eot]) 0 = b).
    { rewrite app_nth1 by auto. specialize (N 0%nat 0). rewrite Nat.add_0_r in N. symmetry. exact N. }
    rewrite B. apply verdict_code; auto.
    + rewrite Forall_forall in H. apply H. rewrite <- (firstn_skipn (S j) cs), E. apply in_or_app. right. left. reflexivity.
    + destruct (Nat.ltb_spec (S (S j)) (length cs)) as [L2|L2].
      * rewrite app_nth1 by auto. specialize (N 1%nat 0). replace (S j + 1)%nat with (S (S j)) in N by lia. rewrite <- N. cbn [nth]. destruct t; [|reflexivity].
        pose proof (skipn_length (S j) cs) as X. rewrite E in X. cbn in X. lia.
      * assert (t = []) as -> by (pose proof (skipn_length (S j) cs) as X; rewrite E in X; destruct t; [reflexivity|cbn in X; lia]).
        rewrite app_nth2 by lia. replace (S (S j) - length cs)%nat with 0%nat by lia. reflexivity.
Qed.

(* ---- the breaker ---- *)
Section Breaker.
Context (table : Z -> Z -> bool) (comb : Z -> bool).
Definition lcls (r : Z) : Z := resolve comb r (ClassForRune table r).
Notation step := (lb_step table comb).
Lemma class_in r : In (ClassForRune table r) (eot :: all_classes).
Proof.
  unfold ClassForRune. destruct (r =? 0); [left; reflexivity|]. destruct (find _ all_classes) eqn:E.
  - right. now apply find_some in E.
  - right. apply in_dec. reflexivity.
Qed.
Lemma lcls_in r : In (lcls r) rclasses.
Proof.
  unfold lcls, resolve. pose proof (class_in r) as H. apply in_dec.
  assert (X : allb (eot :: all_classes) (fun c => one_of (if one_of c [AI; SG; XX] then AL else if c =? SA then CM else if c =? CJ then NS else c) rclasses
    && one_of (if one_of c [AI; SG; XX] then AL else if c =? SA then AL else if c =? CJ then NS else c) rclasses) = true) by (vm_compute; reflexivity).
  apply (allb_in _ _ _ X) in H. apply andb_prop in H. destruct (comb r); apply H.
Qed.
Lemma lcls_0 : lcls 0 = eot.
Proof. reflexivity. Qed.
Lemma lb_round b s r : sok s -> in_state b s ->
  exists b', step (Some b) r = (Some b', llam (lnext s (lcls r)), lpens s (lcls r)) /\ in_state b' (lnext s (lcls r)).
Proof.
  intros Hs Hi. pose proof Hi as (_ & _ & _ & La). destruct (round b s r (lcls r) Hs (lcls_in r) Hi) as (b' & E & I').
  exists b'. split; [|exact I']. unfold lb_step. cbn [obind]. unfold CodePointClassFor. fold (lcls r).
  unfold fcl in E. rewrite La in *. cbv zeta in E. cbv zeta. cbn [obind]. rewrite E. reflexivity.
Qed.
Lemma line_rows : forall rs b s, sok s -> in_state b s -> answers step (Some b) rs = rows lnext llam lpens s (map lcls rs).
Proof.
  induction rs as [|r t IH]; intros b s Hs Hi; [reflexivity|]. cbn [answers map rows].
  destruct (lb_round b s r Hs Hi) as (b' & E & I'). rewrite E. f_equal. apply IH; auto. apply lnext_ok; auto. apply lcls_in.
Qed.
Lemma new_state : in_state NewLineWrap st0.
Proof.
  split; [|split; [constructor|split; reflexivity]]. unfold Inv. exists [], []. cbn. repeat split; constructor.
Qed.
End Breaker.
