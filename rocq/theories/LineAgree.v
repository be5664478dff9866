(* LineAgree.v -- where the code decides as UAX#14 does; line breaking of whole texts. *)
From Coq Require Import List ZArith Lia Bool.
From Verif Require Import Base RuneWrite Segmenter SegSpec SegProofs SegInv SegNext SegCut SegFacade BreakSpec BreakSpecProofs BreakFacade Rows SegEager Line LineSum LineVerdict LineSpec LineCor.
Import ListNotations.
Open Scope Z_scope.

(* ---- whole texts ---- *)
Lemma eager_text table comb text : eager_answers text (answers (lb_step table comb) (Some NewLineWrap) (text ++ [0])) (LV (map (lcls table comb) text)).
Proof.
  rewrite (line_rows table comb _ _ _ st0_ok new_state), map_app. cbn [map]. rewrite lcls_0.
  apply eager_line.
  - apply Forall_forall. intros c Hc. apply in_map_iff in Hc. destruct Hc as (r & <- & _). apply lcls_in.
  - rewrite map_map. reflexivity.
Qed.
Lemma classes_ok table comb text : Forall (fun c => In c rclasses) (map (lcls table comb) text).
Proof. apply Forall_forall. intros c Hc. apply in_map_iff in Hc. destruct Hc as (r & <- & _). apply lcls_in. Qed.
Definition line_break (brk : list Z -> list Z -> bool) (cls : Z -> Z) (l r : list Z) : bool := brk (map cls l) (map cls r).
Lemma LV_text table comb text j : (j < length text)%nat ->
  LV (map (lcls table comb) text) j = match skipn (S j) text with [] => true | t => line_break code_break (lcls table comb) (rev (firstn (S j) text)) t end.
Proof.
  intros Hj. rewrite LV_code by (try apply classes_ok; now rewrite map_length). rewrite skipn_map, firstn_map, <- map_rev. unfold line_break.
  destruct (skipn (S j) text); reflexivity.
Qed.
Lemma answers_lam table comb text : let an := answers (lb_step table comb) (Some NewLineWrap) (text ++ [0]) in
  Forall (fun a : answer => 1 <= fst a) an /\ fst (last an (0, [])) <= 1.
Proof.
  cbv zeta. rewrite (line_rows table comb _ _ _ st0_ok new_state), map_app. cbn [map]. rewrite lcls_0. split.
  - apply lam_ge_an.
  - apply lam_last_an.
Qed.
Lemma line_slice table comb text n : zlen text < MaxInt -> (length text + 1 < n)%nat ->
  exists s1 outs s', InitFromSlice deque_ops text (NewSegmenter [Some NewLineWrap]) = Ok s1 /\
    loop deque_ops (lb_step table comb) n s1 = Ok (outs, true, s') /\
    map fst outs = segmentation (line_break code_break (lcls table comb)) text /\ Err s' = None.
Proof.
  intros Tt Hn. destruct (answers_lam table comb text) as [A B].
  apply (eager_slice (lb_step table comb) (Some NewLineWrap) (line_break code_break (lcls table comb)) (LV (map (lcls table comb) text)) text n Tt Hn (eager_text table comb text) A B).
  intros j Hj. now apply LV_text.
Qed.
Lemma line_reader table comb its n : Forall (fun it => 1 <= snd it) its -> sizes its < MaxInt -> (length its + 1 < n)%nat ->
  exists s1 outs s', Init deque_ops (mkrd its EOF) (NewSegmenter [Some NewLineWrap]) = Ok s1 /\
    loop deque_ops (lb_step table comb) n s1 = Ok (outs, true, s') /\
    map fst outs = map (firstn (Z.to_nat 4096)) (segmentation (line_break code_break (lcls table comb)) (map fst its)) /\ Err s' = None.
Proof.
  intros Sz Tt Hn. destruct (answers_lam table comb (map fst its)) as [A B].
  apply (eager_reader (lb_step table comb) (Some NewLineWrap) (line_break code_break (lcls table comb)) its (LV (map (lcls table comb) (map fst its)))
    (eager_text table comb (map fst its)) A B); auto.
  intros j Hj. now apply LV_text.
Qed.

(* ---- agreement with UAX#14 ---- *)
(* the five contexts in which a combining mark makes a difference *)
Definition quirk (l r : list Z) : bool :=
  let us := units l in let b := hd sot r in
  (hd sot l =? ZWJ) && one_of b [ID; EB; EM]
  || negb (bare us) && is_cls [HY; BA] us && is_cls [HL] (tl us)
  || xorb (odd_ri us) (odd_ri_code us)
  || one_of b [OP; HY] && mark (hd sot (tl r)) && (next_unmarked (tl r) =? NU)
  || negb (bare us) && is_cls [CL; CP] us && in_number (tl us).
Lemma decide_z a s b k h o n c x : forall z, z && one_of b [ID; EB; EM] = false -> decide (mkctx a s b k z h o n c x) = decide (mkctx a s b k false h o n c x).
Proof. intros z H. unfold decide. cbn [cb cs_ ca cmark czwj chl codd cnum cnumc cnext]. rewrite H. reflexivity. Qed.
Lemma decide_n a s b k z h o n c x y : (one_of b [OP; HY] = true -> x = y) -> decide (mkctx a s b k z h o n c x) = decide (mkctx a s b k z h o n c y).
Proof.
  intros H. unfold decide. cbn [cb cs_ ca cmark czwj chl codd cnum cnumc cnext]. destruct (one_of b [OP; HY]); [rewrite H; reflexivity|reflexivity].
Qed.
Lemma marks_not b cs : mark b = true -> one_of b cs = one_of b (filter mark cs).
Proof.
  intros M. induction cs as [|c cs IH]; [reflexivity|]. cbn [filter]. unfold one_of in *. cbn [existsb]. rewrite IH. destruct (mark c) eqn:E; [reflexivity|].
  destruct (Z.eqb_spec b c); [congruence|reflexivity].
Qed.
Lemma agree l r : quirk l r = false -> code_break l r = uax14_break l r.
Proof.
  unfold quirk. rewrite !orb_false_iff. intros ((((Q1 & Q2) & Q3) & Q4) & Q5). unfold code_break, uax14_break, code_ctx, uax14_ctx.
  set (us := units l) in *. set (b := hd sot r) in *.
  assert (H : bare us && is_cls [HY; BA] us && is_cls [HL] (tl us) = is_cls [HY; BA] us && is_cls [HL] (tl us)).
  { destruct (bare us); [reflexivity|]. cbn [negb andb] in *. now rewrite Q2. }
  assert (O : odd_ri_code us = odd_ri us) by (destruct (odd_ri us), (odd_ri_code us); try reflexivity; discriminate).
  assert (N : in_number us || bare us && is_cls [CL; CP] us && in_number (tl us) = closed_number us).
  { unfold closed_number. destruct (bare us); [reflexivity|]. cbn [negb andb] in *. now rewrite Q5. }
  rewrite H, O, N. rewrite (decide_z _ _ _ _ _ _ _ _ (next_unmarked (tl r) =? NU)).
  - apply decide_n. intros Hb. destruct (mark b) eqn:M; [discriminate|]. rewrite Hb in Q4. cbn [andb] in Q4.
    destruct (tl r) as [|d t]; [reflexivity|]. cbn [hd next_unmarked] in *. destruct (mark d) eqn:Md; [|reflexivity]. cbn [andb] in Q4. rewrite Q4.
    apply Z.eqb_neq. intros ->. discriminate.
  - destruct (mark b) eqn:M; [apply andb_false_r|exact Q1].
Qed.

(* a simple condition on neighbours *)
Fixpoint calm_marks (cs : list Z) : bool :=
  match cs with
  | x :: t => match t with
              | y :: _ => negb (mark y && one_of x [RI; HY; BA; OP; CL; CP]) && negb ((x =? ZWJ) && one_of y [ID; EB; EM])
              | [] => true
              end && calm_marks t
  | [] => true
  end.
Lemma no_marks_calm cs : Forall (fun c => mark c = false) cs -> calm_marks cs = true.
Proof.
  induction 1 as [|x t Hx Ht IH]; [reflexivity|]. cbn [calm_marks]. rewrite IH, andb_true_r. destruct t as [|y t]; [reflexivity|].
  inversion Ht; subst. rewrite H1. cbn [andb negb]. destruct (Z.eqb_spec x ZWJ) as [->|]; [discriminate|reflexivity].
Qed.
(* read backwards *)
Fixpoint calm_left (l : list Z) : bool :=
  match l with
  | y :: t => match t with
              | x :: _ => negb (mark y && one_of x [RI; HY; BA; OP; CL; CP]) && negb ((x =? ZWJ) && one_of y [ID; EB; EM])
              | [] => true
              end && calm_left t
  | [] => true
  end.
Lemma calm_app a x y b : calm_marks (a ++ x :: y :: b) = true ->
  calm_marks (a ++ [x]) = true /\ negb (mark y && one_of x [RI; HY; BA; OP; CL; CP]) = true /\ negb ((x =? ZWJ) && one_of y [ID; EB; EM]) = true /\ calm_marks (y :: b) = true.
Proof.
  induction a as [|z a IH]; intros H.
  - cbn [app] in *. change (calm_marks (x :: y :: b)) with (negb (mark y && one_of x [RI; HY; BA; OP; CL; CP]) && negb ((x =? ZWJ) && one_of y [ID; EB; EM]) && calm_marks (y :: b)) in H.
    rewrite !andb_true_iff in H. destruct H as ((A & B) & C). auto.
  - assert (S : forall u t, calm_marks (u :: t) = match t with v :: _ => negb (mark v && one_of u [RI; HY; BA; OP; CL; CP]) && negb ((u =? ZWJ) && one_of v [ID; EB; EM]) | [] => true end && calm_marks t) by reflexivity.
    cbn [app] in *. rewrite S in H |- *. apply andb_prop in H. destruct H as [H1 H2]. destruct (IH H2) as (A & B). split; [|exact B]. rewrite A, andb_true_r.
    destruct a; exact H1.
Qed.
Lemma calm_rev : forall l, calm_marks (rev l) = true -> calm_left l = true.
Proof.
  induction l as [|y t IH]; intros H; [reflexivity|]. destruct t as [|x t]; [reflexivity|].
  cbn [rev] in H. rewrite <- app_assoc in H. cbn [app] in H. destruct (calm_app _ _ _ _ H) as (A & B & C & _).
  change (calm_left (y :: x :: t)) with (negb (mark y && one_of x [RI; HY; BA; OP; CL; CP]) && negb ((x =? ZWJ) && one_of y [ID; EB; EM]) && calm_left (x :: t)).
  rewrite B, C. cbn [andb]. apply IH. exact A.
Qed.
Lemma bare_head l x us : units l = (x, false) :: us -> exists c t, l = c :: t /\ (c = x \/ mark c = true /\ x = AL).
Proof.
  destruct l as [|c t]; cbn [units]; [discriminate|]. intros H. exists c, t. split; [reflexivity|]. destruct (mark c) eqn:M.
  - destruct (units t) as [|u v]; [inversion H; auto|]. destruct (takes u); inversion H; auto.
  - inversion H; auto.
Qed.
Lemma calm_bare l : calm_left l = true -> Forall (fun u => snd u = true -> one_of (fst u) [RI; HY; BA; OP; CL; CP] = false) (units l).
Proof.
  induction l as [|c t IH]; intros H; [constructor|]. cbn [calm_left] in H. apply andb_prop in H. destruct H as [H1 H2]. specialize (IH H2). cbn [units].
  destruct (mark c) eqn:M; [|constructor; [discriminate|exact IH]].
  destruct (units t) as [|[x m] us] eqn:E; [constructor; [discriminate|constructor]|]. inversion IH; subst.
  destruct (takes (x, m)); [|constructor; [discriminate|constructor; auto]]. cbn [fst]. constructor; [|auto]. cbn [fst snd] in *. intros _.
  destruct m; [auto|]. destruct (bare_head _ _ _ E) as (d & t' & -> & [->|[Md ->]]); [|reflexivity].
  apply andb_prop in H1. destruct H1 as [H1 _]. apply negb_true_iff in H1. cbn [andb] in H1. exact H1.
Qed.
Lemma bare_odd us : Forall (fun u => snd u = true -> one_of (fst u) [RI; HY; BA; OP; CL; CP] = false) us -> odd_ri_code us = odd_ri us.
Proof.
  induction 1 as [|[x m] us H Hs IH]; [reflexivity|]. cbn [odd_ri_code odd_ri fst snd] in *. rewrite IH. destruct m; [|reflexivity].
  specialize (H eq_refl). destruct (Z.eqb_spec x RI) as [->|]; [discriminate|reflexivity].
Qed.
Lemma calm_quirk l b r : calm_marks (rev l ++ b :: r) = true -> quirk l (b :: r) = false.
Proof.
  intros H. unfold quirk. cbn [hd tl].
  assert (L : calm_left l = true /\ (hd sot l =? ZWJ) && one_of b [ID; EB; EM] = false /\ calm_marks (b :: r) = true).
  { destruct l as [|x l]; [split; [reflexivity|split; [reflexivity|exact H]]|]. cbn [rev] in H. rewrite <- app_assoc in H. cbn [app] in H.
    destruct (calm_app _ _ _ _ H) as (A & B & C & D). split; [apply calm_rev; exact A|]. split; [cbn [hd]; now apply negb_true_iff|exact D]. }
  destruct L as (L & Q1 & D). pose proof (calm_bare l L) as F. set (us := units l) in *. rewrite Q1, (bare_odd us F), xorb_nilpotent.
  assert (G : forall cs, (forall c, In c cs -> one_of c [RI; HY; BA; OP; CL; CP] = true) -> negb (bare us) && is_cls cs us = false).
  { intros cs Hcs. destruct us as [|[x m] us']; [reflexivity|]. cbn [bare is_cls]. rewrite negb_involutive. destruct m; [|reflexivity]. cbn [andb].
    inversion F; subst. specialize (H2 eq_refl). cbn [fst] in H2. destruct (one_of x cs) eqn:E; [|reflexivity]. apply in_dec in E. rewrite (Hcs _ E) in H2. discriminate. }
  rewrite !G by (intros c Hc; cbn in Hc; destruct Hc as [<-|[<-|[]]]; reflexivity). cbn [orb andb]. rewrite orb_false_r.
  destruct (one_of b [OP; HY]) eqn:E; [|reflexivity]. destruct r as [|d r]; [reflexivity|]. cbn [hd andb].
  cbn [calm_marks] in D. apply andb_prop in D. destruct D as [D _]. apply andb_prop in D. destruct D as [D _]. apply negb_true_iff in D.
  destruct (mark d); [|reflexivity]. cbn [andb] in D. exfalso. apply in_dec in E. cbn in E. destruct E as [<-|[<-|[]]]; discriminate.
Qed.
Lemma segmentation_agree cls text : calm_marks (map cls text) = true ->
  segmentation (line_break code_break cls) text = segmentation (line_break uax14_break cls) text.
Proof.
  intros H. unfold segmentation.
  assert (G : forall rest left open, rev left ++ rest = text -> split_text (line_break code_break cls) left open rest = split_text (line_break uax14_break cls) left open rest).
  { induction rest as [|r t IH]; intros left open E; cbn [split_text]; [reflexivity|]. destruct t as [|y u]; [reflexivity|].
    assert (B : line_break code_break cls (r :: left) (y :: u) = line_break uax14_break cls (r :: left) (y :: u)).
    { unfold line_break. cbn [map]. apply agree. apply calm_quirk. rewrite <- E, map_app, map_rev in H. cbn [rev map] in *. rewrite <- app_assoc. exact H. }
    rewrite B. assert (E' : rev (r :: left) ++ y :: u = text) by (cbn [rev]; rewrite <- app_assoc; exact E). rewrite (IH (r :: left) [] E'), (IH (r :: left) (open ++ [r]) E'). reflexivity. }
  now apply G.
Qed.

(* ---- single rules ---- *)
Lemma head_takes l a : hd sot l = a -> l <> [] -> In a rclasses -> one_of a (hard ++ [SP; ZW; eot]) = false ->
  exists u us, units l = u :: us /\ takes u = true.
Proof.
  intros E N Ha H. destruct l as [|c t]; [congruence|]. cbn [hd] in E. subst c. cbn [units]. destruct (mark a) eqn:M.
  - destruct (units t) as [|u us]; [eauto|]. destruct (takes u) eqn:T; [|eauto]. exists (fst u, true), us. split; [reflexivity|exact T].
  - exists (a, false), (units t). split; [reflexivity|]. unfold takes. cbn [fst]. now rewrite H.
Qed.
Lemma last_plain a l : mark a = false -> a <> eot -> last_class (units (a :: l)) = a.
Proof. intros M N. cbn [units]. rewrite M. cbn [last_class]. apply Z.eqb_neq in N. now rewrite N. Qed.
Lemma break_hard a l b r : one_of a [BK; LF; NL] = true \/ a = CR /\ b <> LF -> code_break (a :: l) (b :: r) = true.
Proof.
  intros H. unfold code_break, code_ctx. set (us := units (a :: l)).
  assert (A : last_class us = a).
  { apply last_plain; destruct H as [H|[-> _]]; try reflexivity; try discriminate; apply in_dec in H; destruct H as [<-|[<-|[<-|[]]]]; try reflexivity; discriminate. }
  rewrite A. unfold decide. cbn [cb cs_ ca hd]. match goal with |- (if ?x then _ else _) = _ => destruct x; [reflexivity|] end.
  destruct H as [H|[-> N]].
  - apply in_dec in H. destruct H as [<-|[<-|[<-|[]]]]; reflexivity.
  - cbn [Z.eqb]. replace (CR =? BK) with false by reflexivity. replace (CR =? CR) with true by reflexivity. apply negb_true_iff, Z.eqb_neq.
    destruct (mark b); [discriminate|exact N].
Qed.
Lemma no_break_crlf l r : code_break (CR :: l) (LF :: r) = false.
Proof. reflexivity. Qed.
Lemma class_after_hard a l : one_of a hard = false -> In a rclasses ->
  (last_class (units (a :: l)) =? BK) = false /\ (last_class (units (a :: l)) =? CR) = false /\ one_of (last_class (units (a :: l))) [LF; NL] = false.
Proof.
  intros H Ha.
  assert (G : one_of (last_class (units (a :: l))) hard = false).
  { cbn [units]. destruct (mark a) eqn:M.
    - destruct (units l) as [|u us]; [reflexivity|]. destruct (takes u) eqn:T; [|reflexivity]. cbn [last_class]. destruct (fst u =? eot); [reflexivity|].
      unfold takes in T. apply negb_true_iff in T. unfold one_of in *. rewrite existsb_app in T. apply orb_false_iff in T. apply T.
    - cbn [last_class]. destruct (a =? eot); [reflexivity|exact H]. }
  unfold hard, one_of in G. cbn [existsb] in G. unfold one_of. cbn [existsb]. rewrite !orb_false_iff in *. tauto.
Qed.
Lemma no_break_before a l b r : In a rclasses -> one_of a hard = false -> one_of b (hard ++ [SP; ZW]) = true -> code_break (a :: l) (b :: r) = false.
Proof.
  intros Ha H Hb. destruct (class_after_hard a l H Ha) as (A & B & C). unfold code_break, code_ctx. set (us := units (a :: l)) in *.
  unfold decide. cbn [cb cs_ ca hd]. rewrite A, B, C. apply in_dec in Hb. cbn in Hb.
  repeat (destruct Hb as [<-|Hb]; [reflexivity|]). contradiction.
Qed.
Lemma no_break_mark a l b r : In a rclasses -> one_of a (hard ++ [SP; ZW; eot]) = false -> mark b = true -> code_break (a :: l) (b :: r) = false.
Proof.
  intros Ha H Hb. assert (Hh : one_of a hard = false) by (unfold one_of in *; rewrite existsb_app in H; apply orb_false_iff in H; apply H).
  destruct (class_after_hard a l Hh Ha) as (A & B & C). destruct (head_takes (a :: l) a eq_refl ltac:(discriminate) Ha H) as (u & us & E & T).
  unfold code_break, code_ctx, decide. cbn [cb cs_ ca cmark czwj hd]. rewrite A, B, C, Hb. unfold belongs. rewrite Hb, E, T. cbn [andb].
  replace (AL =? eot) with false by reflexivity. replace (one_of AL hard) with false by reflexivity. replace (one_of AL [SP; ZW]) with false by reflexivity.
  assert (S : (nonspace (u :: us) =? ZW) = false).
  { destruct u as [x m]. cbn [nonspace]. unfold takes in T. apply negb_true_iff in T. cbn [fst] in T.
    destruct (Z.eqb_spec x SP) as [->|]; [discriminate|]. destruct (Z.eqb_spec x ZW) as [->|]; [discriminate|reflexivity]. }
  rewrite S. reflexivity.
Qed.
