(* SharedMixed.v -- schedules of the two goroutines for texts with isolates, without numbers, in which
   brackets occur outside of the isolates only. *)
From Coq Require Import List ZArith Lia Bool.
From Verif Require Import Base Scrap Brackets Trie Rules RuleProofs Reorder Scanner Resolver ScannerProofs ResolverFlat ResolverProofs ResolverNested Shared SharedProofs.
Import ListNotations.
Open Scope Z_scope.

(* ---- runs in which nothing is looked up before the last message, not even after rule W7 ---- *)
Fixpoint still {A} (p : sproc A) (l : list scrap) (st : scst) : Prop :=
  match p with
  | SDone a => True
  | STau p => still p l st
  | SRecv k => match l with [] => still (k scrap0) [] st | m :: l => still (k m) l st end
  | SFind s k => match l with [] => still (k (fst (findBracket st s))) [] st | _ => False end
  | SChange s p => match l with [] => still p [] (changeBracket st s) | _ => False end
  | SLook _ p => match l with [] => still p [] st | _ => False end
  end.
Definition runs {A} (p : sproc A) (l : list scrap) (st : scst) (x : A * list scrap * scst) : Prop := exec p l st = Some x /\ still p l st.

Lemma still_end {A} (p : sproc A) : forall st, still p [] st.
Proof. induction p; intros st; cbn [still]; auto. Qed.
Lemma still_sbind {A B} (m : sproc (res A)) (f : A -> sproc (res B)) : forall l st, still m l st ->
  (forall a l' st', exec m l st = Some (Ok a, l', st') -> still (f a) l' st') -> still (sbind m f) l st.
Proof.
  induction m as [[a| |]|m IH|k IH|s k IH|s m IH|x m IH]; intros l st H1 H2; cbn [sbind still exec] in *; auto.
  - destruct l as [|x l]; apply IH; auto.
  - destruct l as [|x l]; [apply IH; auto|contradiction].
  - destruct l as [|x l]; [apply IH; auto|contradiction].
  - destruct l as [|y l]; [apply IH; auto|contradiction].
Qed.
Lemma runs_sbind {A B} (m : sproc (res A)) (f : A -> sproc (res B)) l st a l' st' x :
  runs m l st (Ok a, l', st') -> runs (f a) l' st' x -> runs (sbind m f) l st x.
Proof.
  intros [E1 S1] [E2 S2]. split; [rewrite exec_sbind, E1; exact E2|]. apply still_sbind; [exact S1|]. intros a' l2 st2 E.
  rewrite E1 in E. injection E as <- <- <-. exact S2.
Qed.
Lemma runs_done {A} (a : A) l st : runs (SDone a) l st (a, l, st).
Proof. split; [reflexivity|exact Logic.I]. Qed.
Lemma runs_tau {A} (p : sproc A) l st x : runs p l st x -> runs (STau p) l st x.
Proof. auto. Qed.

Lemma still_read_loop : forall n p l st, still (read_loopS n p) l st.
Proof.
  induction n as [|n IH]; intros p l st; cbn [read_loopS still]; [exact Logic.I|].
  assert (H : forall s l', still (if clz s =? cNULL then SDone (Ok (O, mkp (p_stack p) (p_sp p) true (p_pipe p) (p_depth p) (p_store p)))
     else let% (k, p) := read_loopS n (mkp (p_stack p ++ [s]) (p_sp p) (p_eof p) (p_pipe p) (p_depth p) (p_store p)) in SDone (Ok (S k, p))) l' st).
  { intros s l'. destruct (_ =? _); [exact Logic.I|]. apply still_sbind; [apply IH|]. intros [k q] l2 st2 _. exact Logic.I. }
  destruct l as [|m l]; apply H.
Qed.
Lemma read_runs n (p : pst scst) st k b q : read n p = (k, b, q) -> runs (readS n (forget p)) (p_pipe p) st (Ok (k, b, forget q), p_pipe q, st).
Proof.
  intros E. split; [destruct (read_exec n p st) as [X _]; rewrite E in X; exact X|].
  unfold readS. destruct (_ || _); [exact Logic.I|]. apply still_sbind; [apply still_read_loop|]. intros [? ?] ? ? _. exact Logic.I.
Qed.
Lemma fill_runs (p : pst scst) st : runs (fillS (forget p)) (p_pipe p) st (Ok (forget (fill p)), p_pipe (fill p), st).
Proof.
  split; [apply fill_exec|]. unfold fillS. apply still_sbind; [|intros [[? ?] ?] ? ? _; exact Logic.I].
  change (p_sp (forget p)) with (p_sp p). change (p_stack (forget p)) with (p_stack p).
  destruct (read (3 + p_sp p - length (p_stack p)) p) as [[k b] q] eqn:E. exact (proj2 (read_runs _ _ st _ _ _ E)).
Qed.
Lemma apply_runs (p q : pst scst) r start lo l st : r <> W7 -> apply_rule p r start lo = Ok q ->
  runs (apply_ruleS (forget p) r start lo) l st (Ok (forget q), l, st).
Proof.
  intros NW E. split; [exact (apply_exec _ _ _ _ _ _ _ E)|].
  unfold apply_ruleS. apply still_sbind; [exact Logic.I|]. intros m l1 st1 _. apply still_sbind; [exact Logic.I|].
  intros [[rhs jmp] nl] l2 st2 E2. apply still_sbind; [exact Logic.I|]. intros p2 l3 st3 _.
  cbn [exec] in E2. destruct (action r m) as [[[rhs' jmp'] nl']|] eqn:EA; [|discriminate]. cbn [lift] in E2. injection E2 as -> -> -> <- <-.
  assert (nl = false) as ->; [|exact Logic.I].
  destruct r; cbn [action] in EA; unfold squash, midswap, drop_third, first_two in EA; try congruence;
      repeat match type of EA with
      | obind ?x _ = _ => destruct x as [?|] eqn:?; [cbn [obind] in EA|discriminate]
      | match ?x with [] => _ | _ => _ end = _ => destruct x as [|? ?]; [discriminate|]
      end; congruence.
Qed.

(* ---- brackets outside ---- *)
(* With d initiators open, no bracket is inside. *)
Fixpoint clean (d : nat) (l : list scrap) : Prop :=
  match l with
  | [] => True
  | s :: t => if clz s =? cPDI then clean (pred d) t else if isisolate s then clean (S d) t
              else (d = 0%nat \/ isbracket s = false) /\ clean d t
  end.
Definition open (d : nat) (s : scrap) : Prop := isisolate s = false /\ (d = 0%nat \/ isbracket s = false).

Lemma noniso_pdi s : isisolate s = false -> clz s =? cPDI = false.
Proof. unfold isisolate. intros H. apply orb_false_iff in H. tauto. Qed.
Lemma clean_open d a b : Forall (open d) a -> clean d b -> clean d (a ++ b).
Proof.
  induction 1 as [|s a [H1 H2] _ IH]; intros C; cbn [app clean]; [exact C|]. rewrite (noniso_pdi _ H1), H1. auto.
Qed.
Lemma clean_drop d a b : Forall (fun s => isisolate s = false) a -> clean d (a ++ b) -> Forall (open d) a /\ clean d b.
Proof.
  induction 1 as [|s a H1 _ IH]; intros C; cbn [app clean] in C; [auto|]. rewrite (noniso_pdi _ H1), H1 in C. destruct C as [C1 C2].
  destruct (IH C2) as [I1 I2]. split; [constructor; [split; assumption|assumption]|assumption].
Qed.
Lemma clean_null d : forall a s b, clz s = cNULL -> clean d (a ++ s :: b) -> clean d (a ++ b).
Proof.
  intros a. revert d. induction a as [|x a IH]; intros d s b EC C; cbn [app clean] in *.
  - unfold isisolate in C. rewrite EC in C. exact (proj2 C).
  - destruct (clz x =? cPDI); [eapply IH; eauto|]. destruct (isisolate x); [eapply IH; eauto|]. destruct C as [C1 C2]. split; [exact C1|eapply IH; eauto].
Qed.

(* ---- classes without numbers ---- *)
Definition numberless (c : Z) : Prop := is_class c /\ c <> cEN /\ c <> cAN.
Notation good := (okS numberless).
Lemma nl_L : numberless cL. Proof. repeat split; discriminate. Qed.
Lemma nl_R : numberless cR. Proof. repeat split; discriminate. Qed.
Lemma nl_NI : numberless cNI. Proof. repeat split; discriminate. Qed.
(* In the channel there may also be the stopper. *)
Definition numberless0 (c : Z) : Prop := (is_class c \/ c = cNULL) /\ c <> cEN /\ c <> cAN.
Notation good0 := (okS numberless0).
Lemma good_class l : Forall good l -> Forall (fun s => is_class (clz s)) l.
Proof. apply Forall_impl. intros s [[H _] _]. exact H. Qed.
Lemma good_merge c m : numberless c -> m <> [] -> Forall good m -> good (merge c m).
Proof. intros H N F. destruct m as [|s m]; [congruence|]. pose proof (Forall_inv F) as [_ E]. split; [exact H|exact E]. Qed.

(* ---- reading ---- *)
Definition took (p q : pst scst) : Prop :=
  p_sp q = p_sp p /\ p_depth q = p_depth p /\ p_store q = p_store p /\
  exists more, p_stack q = p_stack p ++ more /\ (Forall good0 (p_pipe p) -> Forall good more /\ Forall good0 (p_pipe q)) /\
    (forall d a, clean d (a ++ p_pipe p) -> clean d (a ++ more ++ p_pipe q)).
Lemma took_refl p : took p p.
Proof. split; [|split; [|split]]; auto. exists []. split; [symmetry; apply app_nil_r|]. auto. Qed.
Lemma read_loop_took : forall n p, took p (snd (read_loop n p)).
Proof.
  induction n as [|n IH]; intros p; cbn [read_loop]; [apply took_refl|].
  destruct (receive (p_pipe p)) as [s l] eqn:EP.
  assert (H : (Forall good0 (p_pipe p) -> Forall good0 (s :: l)) /\ forall d a, clean d (a ++ p_pipe p) -> clean d (a ++ s :: l)).
  { destruct (p_pipe p) as [|s' l']; injection EP as <- <-; [|auto]. split.
    - intros _. constructor; [|constructor]. split; [split; [left|]; apply nl_L|left; reflexivity].
    - intros d a. revert d. induction a as [|x a IHa]; intros d C; cbn [app clean] in *; [split; [right; reflexivity|exact Logic.I]|].
      destruct (clz x =? cPDI); auto. destruct (isisolate x); auto. destruct C as [C1 C2]. auto. }
  destruct H as [H1 H2]. destruct (clz s =? cNULL) eqn:EC; cbn [snd].
  - split; [|split; [|split]]; auto. exists []. split; [symmetry; apply app_nil_r|]. cbn [app p_pipe]. split.
    + intros F. split; [constructor|exact (Forall_inv_tail (H1 F))].
    + intros d a C. eapply clean_null; [apply Z.eqb_eq, EC|]. apply H2, C.
  - specialize (IH (mkp (p_stack p ++ [s]) (p_sp p) (p_eof p) l (p_depth p) (p_store p))). destruct (read_loop n _) as [k q]. cbn [snd] in IH |- *.
    destruct IH as (A & B & C & more & D & E & F). cbn [p_sp p_depth p_store p_stack p_pipe] in *.
    split; [|split; [|split]]; auto. exists (s :: more). split; [rewrite D, <- app_assoc; reflexivity|]. split.
    + intros G. specialize (H1 G). destruct (E (Forall_inv_tail H1)) as [E1 E2]. split; [|exact E2]. constructor; [|exact E1].
      pose proof (Forall_inv H1) as [[[I|I] J] K]; [split; [split; assumption|exact K]|]. apply Z.eqb_neq in EC. contradiction.
    + intros d a G. specialize (F d (a ++ [s])). rewrite <- !app_assoc in F. cbn [app] in F. apply F, H2, G.
Qed.
Lemma read_took n p k b q : read n p = (k, b, q) -> took p q.
Proof.
  unfold read. destruct (_ || _); [intros E; injection E as <- <- <-; apply took_refl|]. pose proof (read_loop_took n p) as H.
  destruct (read_loop n p) as [j r]. intros E. injection E as <- <- <-. exact H.
Qed.
Lemma fill_took p : took p (fill p).
Proof. unfold fill. destruct (read _ p) as [[k b] q] eqn:E. exact (read_took _ _ _ _ _ E). Qed.

Ltac no_num F := exfalso;
  repeat match goal with H : Forall good (_ :: _) |- _ => let A := fresh in pose proof (Forall_inv H) as [[_ A] _]; apply Forall_inv_tail in H; destruct A end;
  congruence.
Lemma lhs_nonempty r m : map clz m = lhs r -> m <> [].
Proof. intros M. destruct r; cbn [lhs] in M; destruct m; discriminate. Qed.

(* A rule of pass 1 puts one neutral in place of its left-hand side. *)
Lemma rule1 r m v : In r stored -> pass r = 1 -> map clz m = lhs r -> Forall good m ->
  r <> W7 /\ exists j, j <= 0 /\ action r (m ++ v) = Some ([merge cNI m], j, false).
Proof.
  intros I P M F. destruct r; try discriminate P; cbn [lhs] in M; inv_map; try (no_num F); (split; [discriminate|]);
    (eexists; split; [|reflexivity]; lia).
Qed.
(* A rule of pass 2 puts a letter in place of its left-hand side. *)
Lemma rule2 r m v : In r stored -> pass r = 2 -> map clz m = lhs r -> Forall good m ->
  exists c j, (c = cL \/ c = cR) /\ (j = 0 \/ j = -1) /\ action r (m ++ v) = Some ([merge c m], j, false).
Proof.
  intros I P M F. destruct r; try discriminate P; cbn [lhs] in M; inv_map; try (no_num F).
  - exists cL, 0. repeat split; auto.
  - exists cR, 0. repeat split; auto.
  - pose proof (Forall_inv F) as [_ E]. exists (se s), (-1). split; [exact E|]. split; [auto|]. rewrite merge_one. reflexivity.
  - exists cL, 0. repeat split; auto.
  - exists cR, 0. repeat split; auto.
Qed.
Lemma pass_12 r : pass r = 1 \/ pass r = 2.
Proof. destruct r; auto. Qed.

Notation pass2 := (pass2 the_trie the_tab findBracket changeBracket).
Notation pass2S := (pass2S the_trie the_tab).
Notation pass1_loop := (pass1_loop the_trie the_tab findBracket changeBracket).
Notation parseIRS := (parseIRS the_trie the_tab findBracket changeBracket).
Notation pass1S := (pass1S the_trie the_tab).
Notation parseS := (parseS the_trie the_tab).

(* ---- pass 2 of an isolate: no brackets, and it ends behind the PDI ---- *)
Definition not_behind_pdi (u : list scrap) : Prop := forall u0 x, u = u0 ++ [x] -> clz x <> cPDI.
Definition spot (u w : list scrap) (sp : nat) : Prop :=
  sp = length u \/ (exists w1 w2, w = w1 ++ w2 /\ sp = (length u + 1 + length w1)%nat) \/ sp = (length u + 1 + length w + 1)%nat.

Lemma nth_at {A} (a : list A) x b : nth_error (a ++ x :: b) (length a) = Some x.
Proof. rewrite nth_error_app2, Nat.sub_diag by lia. reflexivity. Qed.

Lemma pass2_inside : forall n u i w pdi post p q l st,
  not_behind_pdi u -> isinit i = true -> clz pdi = cPDI -> Forall (open 1) w -> Forall good (i :: w ++ pdi :: post) ->
  p_stack p = u ++ i :: w ++ pdi :: post -> spot u w (p_sp p) ->
  pass2 n (length u) p = Ok q ->
  runs (pass2S n (length u) (forget p)) l st (Ok (forget q), l, st) /\
  p_pipe q = p_pipe p /\ p_depth q = p_depth p /\ p_store q = p_store p /\
  exists w', p_stack q = u ++ i :: w' ++ pdi :: post /\ Forall (open 1) w' /\ Forall good w' /\ p_sp q = (length u + 1 + length w' + 1)%nat.
Proof.
  induction n as [|n IH]; intros u i w pdi post p q l st NB II EP OW GD ES SP; [discriminate|].
  destruct (init_iso _ II) as [I1 I2].
  assert (GI : good i) by exact (Forall_inv GD).
  assert (GW : Forall good w) by (apply Forall_inv_tail in GD; apply Forall_app in GD; tauto).
  assert (GP : Forall good (pdi :: post)) by (apply Forall_inv_tail in GD; apply Forall_app in GD; tauto).
  destruct (pdi_iso _ EP) as [P1 P2].
  cbn [Resolver.pass2 Shared.pass2S]. change (p_sp (forget p)) with (p_sp p). change (p_stack (forget p)) with (p_stack p). cbv zeta.
  assert (LEN : length (p_stack p) = (length u + 1 + length w + 1 + length post)%nat) by (rewrite ES, !app_length; cbn [length]; rewrite app_length; cbn [length]; lia).
  (* is the PDI passed? *)
  assert (PA : (match p_sp p with O => Some false | S k => do s <- nth_error (p_stack p) k; Some (clz s =? cPDI) end) =
    Some (p_sp p =? length u + 1 + length w + 1)%nat).
  { destruct SP as [SP|[(w1 & w2 & EW & SP)|SP]].
    - rewrite SP. replace (length u =? length u + 1 + length w + 1)%nat with false by (symmetry; apply Nat.eqb_neq; lia).
      destruct u as [|u0 u'] using rev_ind; [reflexivity|]. rewrite app_length. cbn [length]. replace (length u' + 1)%nat with (S (length u')) by lia.
      rewrite ES, <- app_assoc. cbn [app]. rewrite nth_at. cbn [obind]. f_equal. apply Z.eqb_neq. exact (NB u' u0 eq_refl).
    - rewrite SP. replace (length u + 1 + length w1 =? length u + 1 + length w + 1)%nat with false by (symmetry; apply Nat.eqb_neq; rewrite EW, app_length; lia).
      replace (length u + 1 + length w1)%nat with (S (length u + length w1)) by lia.
      assert (exists s, nth_error (p_stack p) (length u + length w1) = Some s /\ isisolate s && (clz s =? cPDI) = false) as (s & EN & ESS).
      { rewrite ES, nth_error_app2 by lia. replace (length u + length w1 - length u)%nat with (length w1) by lia.
        destruct w1 as [|y w1 _] using rev_ind; [exists i; split; [reflexivity|apply andb_false_iff; right; apply Z.eqb_neq; exact I2]|].
        exists y. rewrite app_length. cbn [length]. replace (length w1 + 1)%nat with (S (length w1)) by lia. cbn [nth_error]. rewrite EW, <- !app_assoc. cbn [app].
        rewrite nth_at. split; [reflexivity|]. rewrite EW in OW. apply Forall_app in OW. destruct OW as [OW _]. apply Forall_app in OW. destruct OW as [_ OW].
        pose proof (Forall_inv OW) as [H _]. rewrite H. reflexivity. }
      rewrite EN. cbn [obind]. f_equal. destruct (clz s =? cPDI) eqn:E; [|reflexivity]. exfalso. apply Z.eqb_eq in E. apply pdi_iso in E. destruct E as [E _]. rewrite E in ESS. discriminate.
    - rewrite SP, Nat.eqb_refl. replace (length u + 1 + length w + 1)%nat with (S (length (u ++ i :: w))) by (rewrite app_length; cbn [length]; lia).
      replace (u ++ i :: w ++ pdi :: post) with ((u ++ i :: w) ++ pdi :: post) in ES by (rewrite <- app_assoc; reflexivity).
      rewrite ES, nth_at. cbn [obind]. rewrite EP. reflexivity. }
  rewrite PA. cbn [lift rbind]. intros X.
  destruct (Nat.eqb_spec (p_sp p) (length u + 1 + length w + 1)) as [ED|NE].
  { cbn [orb] in X. injection X as <-. split; [|split; [|split; [|split]]]; auto; [|exists w; auto].
    eapply runs_sbind; [apply runs_done|]. cbn [orb]. apply runs_done. }
  assert (BD : (p_sp p < length (p_stack p))%nat) by (destruct SP as [SP|[(w1 & w2 & EW & SP)|SP]]; [| |congruence]; rewrite LEN, SP; [|rewrite EW, app_length]; lia).
  cbn [orb] in X |- *. replace (length (p_stack p) <=? p_sp p)%nat with false in X by (symmetry; apply Nat.leb_gt; exact BD).
  (* the step without rule *)
  assert (NEXT : spot u w (S (p_sp p)) -> pass2 n (length u) (with_sp p (S (p_sp p))) = Ok q ->
    runs (pass2S n (length u) (forget (with_sp p (S (p_sp p))))) l st (Ok (forget q), l, st) /\
    p_pipe q = p_pipe p /\ p_depth q = p_depth p /\ p_store q = p_store p /\
    exists w', p_stack q = u ++ i :: w' ++ pdi :: post /\ Forall (open 1) w' /\ Forall good w' /\ p_sp q = (length u + 1 + length w' + 1)%nat).
  { intros SP' X'. exact (IH u i w pdi post (with_sp p (S (p_sp p))) q l st NB II EP OW GD ES SP' X'). }
  (* at an isolate character nothing applies *)
  assert (ISO : forall a s b, p_stack p = a ++ s :: b -> p_sp p = length a -> isisolate s = true -> Forall good (s :: b) ->
     exists sh, match_at the_trie the_tab p 2 = Ok (None, None) /\ sh = s).
  { intros a s b EA EL IS GA. exists s. split; [|reflexivity]. rewrite (match_spec_at p a (s :: b) 2 EA EL (good_class _ GA)) by lia.
    assert (NO : forall r m v, In r stored -> s :: b = m ++ v -> map clz m = lhs r -> False).
    { intros r m v IR EM M. pose proof (lhs_noniso r m IR M) as NI. pose proof (lhs_nonempty r m M) as NN. destruct m as [|y m]; [congruence|].
      cbn [app] in EM. injection EM as <- _. apply Forall_inv in NI. congruence. }
    destruct (long_rule stored (map clz (s :: b))) as [r|] eqn:E1; [exfalso; destruct (long_found _ _ E1) as (IR & m & v & EM & M); eauto|].
    destruct (rule_for stored (firstn 1 (map clz (s :: b)))) as [r|] eqn:E2; [exfalso; destruct (short_found _ _ E2) as (IR & m & v & EM & M); eauto|]. reflexivity. }
  (* a process that begins as this one *)
  assert (HEAD : forall s m, nth_error (p_stack p) (p_sp p) = Some s -> isbracket s = false -> match_at the_trie the_tab p 2 = Ok m ->
    forall x, runs (let (rule, short) := m in
       match (match rule with Some r => if pass r <? 2 then short else rule | None => short end) with
          | None => pass2S n (length u) (with_sp (forget p) (S (p_sp p)))
          | Some r => if pass r <? 2 then pass2S n (length u) (with_sp (forget p) (S (p_sp p)))
                      else let% p := SDone (apply_rule (forget p) r (length u) 0) in pass2S n (length u) p
          end) l st x ->
    runs (let% passed := SDone (lift (Some false)) in
      if passed || (length (p_stack p) <=? p_sp p)%nat then SDone (Ok (forget p)) else
        let% s := SDone (lift (nth_error (p_stack p) (p_sp p))) in
        if isbracket s then let% (p, jmp) := performRuleN0S (forget p) in pass2S n (length u) (with_sp p (jump (length u) (p_sp p) jmp))
        else let% (rule, short) := SDone (match_at the_trie the_tab (forget p) 2) in
          match (match rule with Some r => if pass r <? 2 then short else rule | None => short end) with
          | None => pass2S n (length u) (with_sp (forget p) (S (p_sp p)))
          | Some r => if pass r <? 2 then pass2S n (length u) (with_sp (forget p) (S (p_sp p)))
                      else let% p := SDone (apply_rule (forget p) r (length u) 0) in pass2S n (length u) p
          end) l st x).
  { intros s m EN EB EM x RX. eapply runs_sbind; [apply runs_done|]. cbn [orb]. replace (length (p_stack p) <=? p_sp p)%nat with false by (symmetry; apply Nat.leb_gt; exact BD).
    eapply runs_sbind; [rewrite EN; apply runs_done|]. rewrite EB. change (match_at the_trie the_tab (forget p) 2) with (match_at the_trie the_tab p 2). rewrite EM.
    eapply runs_sbind; [apply runs_done|]. destruct m as [ru sh]. exact RX. }
  destruct SP as [SP|[(w1 & w2 & EW & SP)|SP]]; [| |congruence].
  - assert (EN : nth_error (p_stack p) (p_sp p) = Some i) by (rewrite ES, SP; apply nth_at).
    assert (NBR : isbracket i = false).
    { unfold isisolate in I1. unfold isbracket. repeat (apply orb_true_iff in I1; destruct I1 as [I1|I1]); apply Z.eqb_eq in I1; rewrite I1; reflexivity. }
    destruct (ISO u i (w ++ pdi :: post) ES SP I1 GD) as (_ & MA & _).
    rewrite EN in X. cbn [lift rbind] in X. rewrite NBR, MA in X. cbn [rbind] in X.
    destruct (NEXT ltac:(right; left; exists [], w; split; [reflexivity|cbn [length]; lia]) X) as (R & REST). split; [|exact REST].
    exact (HEAD _ _ EN NBR MA _ R).
  - destruct w2 as [|s t].
    + rewrite app_nil_r in EW. subst w1.
      assert (ES' : p_stack p = (u ++ i :: w) ++ pdi :: post) by (rewrite <- app_assoc; exact ES).
      assert (SP' : p_sp p = length (u ++ i :: w)) by (rewrite app_length; cbn [length]; lia).
      assert (EN : nth_error (p_stack p) (p_sp p) = Some pdi) by (rewrite ES', SP'; apply nth_at).
      assert (NBR : isbracket pdi = false) by (unfold isbracket; rewrite EP; reflexivity).
      destruct (ISO _ _ _ ES' SP' P1 GP) as (_ & MA & _).
      rewrite EN in X. cbn [lift rbind] in X. rewrite NBR, MA in X. cbn [rbind] in X.
      destruct (NEXT ltac:(right; right; lia) X) as (R & REST). split; [|exact REST].
      exact (HEAD _ _ EN NBR MA _ R).
    + assert (ES' : p_stack p = (u ++ i :: w1) ++ (s :: t) ++ pdi :: post) by (rewrite ES, EW; repeat (rewrite <- app_assoc || cbn [app]); reflexivity).
      assert (SP' : p_sp p = length (u ++ i :: w1)) by (rewrite app_length; cbn [length]; lia).
      assert (EN : nth_error (p_stack p) (p_sp p) = Some s) by (rewrite ES', SP'; apply nth_at).
      assert (OW2 : Forall (open 1) w1 /\ Forall (open 1) (s :: t)) by (rewrite EW in OW; apply Forall_app in OW; exact OW).
      assert (GW2 : Forall good w1 /\ Forall good (s :: t)) by (rewrite EW in GW; apply Forall_app in GW; exact GW).
      destruct OW2 as [OW1 OW2], GW2 as [GW1 GW2].
      assert (NBR : isbracket s = false) by (pose proof (Forall_inv OW2) as [_ [H|H]]; [discriminate|exact H]).
      assert (GT : Forall good ((s :: t) ++ pdi :: post)) by (apply Forall_app; auto).
      pose proof (match_spec_at p _ _ 2 ES' SP' (good_class _ GT) ltac:(lia)) as MA.
      rewrite EN in X. cbn [lift rbind] in X. rewrite NBR, MA in X. cbn [rbind] in X.
      match type of X with context [match long_rule stored ?cs with _ => _ end] => set (cs0 := cs) in * end.
      assert (FOUND : forall r, (match long_rule stored cs0 with Some r => if pass r <? 2 then rule_for stored (firstn 1 cs0) else long_rule stored cs0 | None => rule_for stored (firstn 1 cs0) end) = Some r ->
        In r stored /\ exists m v, (s :: t) ++ pdi :: post = m ++ v /\ map clz m = lhs r).
      { intros r H. destruct (long_rule stored cs0) as [r'|] eqn:E1.
        - destruct (pass r' <? 2); [exact (short_found _ _ H)|]. injection H as ->. exact (long_found _ _ E1).
        - exact (short_found _ _ H). }
      assert (RN : spot u w (S (p_sp p))).
      { right. left. exists (w1 ++ [s]), t. split; [rewrite EW, <- app_assoc; reflexivity|]. rewrite SP, app_length. cbn [length]. lia. }
      assert (MAIN : forall x0, x0 = (match long_rule stored cs0 with Some r => if pass r <? 2 then rule_for stored (firstn 1 cs0) else long_rule stored cs0 | None => rule_for stored (firstn 1 cs0) end) ->
        match x0 with None => pass2 n (length u) (with_sp p (S (p_sp p)))
          | Some r => if pass r <? 2 then pass2 n (length u) (with_sp p (S (p_sp p))) else let* p := apply_rule p r (length u) 0 in pass2 n (length u) p end = Ok q ->
        runs (match x0 with None => pass2S n (length u) (with_sp (forget p) (S (p_sp p)))
          | Some r => if pass r <? 2 then pass2S n (length u) (with_sp (forget p) (S (p_sp p)))
                      else let% p := SDone (apply_rule (forget p) r (length u) 0) in pass2S n (length u) p
          end) l st (Ok (forget q), l, st) /\
        p_pipe q = p_pipe p /\ p_depth q = p_depth p /\ p_store q = p_store p /\
        exists w', p_stack q = u ++ i :: w' ++ pdi :: post /\ Forall (open 1) w' /\ Forall good w' /\ p_sp q = (length u + 1 + length w' + 1)%nat).
      { intros [r|] EX0 X0; [|exact (NEXT RN X0)]. destruct (FOUND r (eq_sym EX0)) as (IR & m & v & EM & M).
        destruct (pass_12 r) as [P|P]; rewrite P in X0 |- *; cbn [Z.ltb Z.compare Pos.compare Pos.compare_cont] in X0 |- *; [exact (NEXT RN X0)|].
        destruct (within m v (s :: t) (pdi :: post)) as (post' & EQ1 & EQ2); [symmetry; exact EM|right; eauto|exact (lhs_noniso r m IR M)|].
        assert (GM : Forall good m /\ Forall good post') by (rewrite EQ1 in GW2; apply Forall_app in GW2; exact GW2).
        destruct GM as [GM GPP].
        destruct (rule2 r m v IR P M GM) as (c & j & HC & HJ & AC).
        rewrite EM in ES'.
        pose proof (apply_meld p r (u ++ i :: w1) m v (merge c m) j false (length u) 0 ES' SP' (lhs_nonempty r m M)
          ltac:(unfold lhsLen; rewrite <- M, map_length; reflexivity) ltac:(rewrite app_length; cbn [length]; lia) AC) as AP.
        rewrite AP in X0. cbn [rbind] in X0.
        set (p' := with_sp (with_stack p ((u ++ i :: w1) ++ merge c m :: v)) (jump 0 (length (u ++ i :: w1)) j)) in *.
        assert (OM : open 1 (merge c m)).
        { unfold open, isisolate, isbracket. cbn [merge clz]. destruct HC as [-> | ->]; auto. }
        assert (G2 : good (merge c m)) by (apply good_merge; [destruct HC as [-> | ->]; [apply nl_L|apply nl_R]|exact (lhs_nonempty r m M)|exact GM]).
        destruct (IH u i (w1 ++ merge c m :: post') pdi post p' q l st NB II EP) as (R & A1 & A2 & A3 & A4).
        - apply Forall_app. split; [exact OW1|]. constructor; [exact OM|]. rewrite EQ1 in OW2. apply Forall_app in OW2. tauto.
        - constructor; [exact GI|]. apply Forall_app. split; [|exact GP]. apply Forall_app. split; [exact GW1|]. constructor; assumption.
        - unfold p'. cbn [with_sp with_stack p_stack]. rewrite EQ2. repeat (rewrite <- app_assoc || cbn [app]). reflexivity.
        - unfold p'. cbn [with_sp p_sp]. rewrite app_length. cbn [length]. unfold jump. destruct HJ as [-> | ->].
          + right. left. exists w1, (merge c m :: post'). split; [reflexivity|]. lia.
          + destruct w1 as [|y w1' _] using rev_ind; [left; cbn [length]; lia|]. right. left. exists w1', (y :: merge c m :: post').
            split; [rewrite <- app_assoc; reflexivity|]. rewrite app_length. cbn [length]. lia.
        - exact X0.
        - split; [|auto]. eapply runs_sbind; [rewrite apply_forget, AP; apply runs_done|exact R]. }
      destruct (MAIN _ eq_refl) as (R & REST); [exact X|]. split; [|exact REST]. exact (HEAD _ _ EN NBR MA _ R).
Qed.

Lemma apply_eof (p q : pst scst) r start lo : apply_rule p r start lo = Ok q -> p_eof q = p_eof p.
Proof.
  unfold apply_rule. destruct (tail_at p) as [m|]; [|discriminate]. cbn [lift rbind].
  destruct (action r m) as [[[rhs jmp] nl]|]; [|discriminate]. cbn [lift rbind]. destruct (reduce p _ _ _) as [q0|] eqn:E; [|discriminate].
  cbn [lift rbind]. intros X. injection X as <-. destruct (reduce_keeps _ _ _ _ _ E) as (E1 & E2 & E3 & E4 & E5). exact E4.
Qed.
Lemma pass2_eof : forall n start (p q : pst scst), pass2 n start p = Ok q -> p_eof q = p_eof p.
Proof.
  induction n as [|n IH]; intros start p q; [discriminate|]. cbn [Resolver.pass2].
  match goal with |- rbind (lift ?x) _ = _ -> _ => destruct x as [passed|] end; [|discriminate]. cbn [lift rbind].
  destruct (_ || _); [intros X; injection X as <-; auto|]. destruct (nth_error (p_stack p) (p_sp p)) as [s|] eqn:EN; [|discriminate]. cbn [lift rbind].
  destruct (isbracket s).
  - destruct (performRuleN0 findBracket changeBracket p) as [[q1 j]|] eqn:E0; [|discriminate]. cbn [lift rbind]. intros X.
    apply IH in X. cbn [with_sp p_eof] in X. rewrite X. clear X.
    unfold performRuleN0 in E0. rewrite EN in E0. cbn [obind] in E0. destruct (findBracket (p_store p) s) as [a b]. destruct (clz s =? cBRACKO).
    + destruct a as [c|]; [|injection E0 as <- <-; reflexivity].
      destruct (has_match_after c s); [injection E0 as <- <-; reflexivity|]. destruct (has_opposite_after c s); injection E0 as <- <-; reflexivity.
    + injection E0 as <- <-. reflexivity.
  - destruct (match_at the_trie the_tab p 2) as [[ru sh]| |]; [|discriminate|discriminate].
    cbn [rbind]. match goal with |- match ?x with _ => _ end = _ -> _ => destruct x as [r|] end.
    + destruct (pass r <? 2); [exact (IH start (with_sp p (S (p_sp p))) q)|].
      destruct (apply_rule p r start 0) as [q1| |] eqn:EA; [|discriminate|discriminate]. cbn [rbind]. intros X.
      apply IH in X. rewrite X. exact (apply_eof _ _ _ _ _ EA).
    + exact (IH start (with_sp p (S (p_sp p))) q).
Qed.

(* ---- after the last message everything goes as in Resolver.v ---- *)
Lemma read_last n (p : pst scst) k b q : p_pipe p = [] -> read n p = (k, b, q) -> p_pipe q = [] /\ p_store q = p_store p.
Proof.
  intros E. unfold read. destruct (_ || _); [intros X; injection X as <- <- <-; auto|]. destruct (read_loop n p) as [j r] eqn:ER. intros X. injection X as <- <- <-.
  revert p j r E ER. induction n as [|n IH]; intros p j r E ER; cbn [read_loop] in ER; [injection ER as <- <-; auto|]. rewrite E in ER. cbn [receive] in ER.
  change (clz scrap0 =? cNULL) with false in ER.
  destruct (read_loop n _) as [k q] eqn:EQ. injection ER as <- <-. apply IH in EQ; [|reflexivity]. exact EQ.
Qed.
Lemma fill_last (p : pst scst) : p_pipe p = [] -> p_pipe (fill p) = [] /\ p_store (fill p) = p_store p.
Proof. intros E. unfold fill. destruct (read _ p) as [[k b] q] eqn:ER. exact (read_last _ _ _ _ _ E ER). Qed.

Lemma parse_last : forall n,
  (forall start walk short p b q, p_pipe p = [] -> pass1_loop n start walk short p = Ok (b, q) ->
    exec (pass1S n start walk short (forget p)) [] (p_store p) = Some (Ok (b, forget q), [], p_store q) /\ p_pipe q = []) /\
  (forall start p a k b q, p_pipe p = [] -> parseIRS n start p = Ok (a, k, b, q) ->
    exec (parseS n start (forget p)) [] (p_store p) = Some (Ok (a, k, b, forget q), [], p_store q) /\ p_pipe q = []).
Proof.
  induction n as [|n [IH1 IH2]]; [split; discriminate|]. split.
  - intros start walk short p b q O. cbn [Resolver.pass1_loop Shared.pass1S].
    fold (@Resolver.parseIRS the_trie the_tab scst findBracket changeBracket). fold (@Shared.parseS the_trie the_tab).
    rewrite exec_sbind. destruct (fill_exec p (p_store p)) as [F1 _]. destruct (fill_last p O) as [OF F2]. rewrite OF, O in F1. rewrite F1. cbn [exec]. cbv zeta.
    rewrite <- F2. set (p1 := fill p) in *. clearbody p1. clear F1 F2 O p.
    change (p_stack (forget p1)) with (p_stack p1). change (p_sp (forget p1)) with (p_sp p1). change (p_eof (forget p1)) with (p_eof p1).
    destruct (_ =? _)%nat.
    { destruct (p_eof p1); [|discriminate]. intros X. injection X as <- <-. auto. }
    assert (AP : forall r, (let* p := apply_rule p1 r start start in pass1_loop n start false None p) = Ok (b, q) ->
      exec (let% p := apply_ruleS (forget p1) r start start in pass1S n start false None p) [] (p_store p1) = Some (Ok (b, forget q), [], p_store q) /\ p_pipe q = []).
    { intros r X. rewrite exec_sbind. destruct (apply_rule p1 r start start) as [q'| |] eqn:EA; [|discriminate|discriminate]. cbn [rbind] in X.
      rewrite (apply_exec _ _ _ _ _ _ _ EA). destruct (apply_keeps _ _ _ _ _ EA) as (K1 & K2 & _). rewrite <- K2. apply IH1; [congruence|exact X]. }
    destruct walk.
    + match goal with |- match ?x with _ => _ end = _ -> _ => destruct x as [r|] end; [apply AP|].
      rewrite exec_sbind. cbn [exec]. destruct (nth_error (p_stack p1) (p_sp p1)) as [s|]; [|discriminate]. cbn [lift rbind].
      destruct (clz s =? cPDI).
      { intros X. injection X as <- <-. split; [reflexivity|exact OF]. }
      destruct (isisolate s); [|exact (IH1 start false None (with_sp p1 (S (p_sp p1))) b q OF)].
      rewrite exec_sbind. destruct (parseIRS n (p_sp p1) p1) as [[[[rhs runlen] ok'] q']| |] eqn:EI; [|discriminate|discriminate].
      destruct (IH2 _ _ _ _ _ _ OF EI) as (E1 & O1). rewrite E1. cbn [rbind]. destruct ok'.
      * rewrite exec_sbind. cbn [exec]. change (with_sp (forget q') (p_sp p1)) with (forget (with_sp q' (p_sp p1))). rewrite reduce_forget.
        destruct (reduce (with_sp q' (p_sp p1)) runlen rhs start) as [q''|] eqn:ER; [|discriminate]. cbn [lift rbind]. intros X.
        destruct (reduce_keeps _ _ _ _ _ ER) as (K1 & K2 & _). cbn [with_sp p_pipe p_store] in K1, K2. rewrite <- K2. apply IH1; [congruence|exact X].
      * destruct (runlen =? 0)%nat; [discriminate|]. rewrite exec_sbind. cbn [exec]. destruct rhs as [|x t]; [discriminate|]. cbn [rbind].
        rewrite exec_sbind. cbn [exec]. change (with_sp (forget q') (p_sp p1)) with (forget (with_sp q' (p_sp p1))). rewrite reduce_forget.
        destruct (reduce (with_sp q' (p_sp p1)) runlen _ start) as [q''|] eqn:ER; [|discriminate]. cbn [lift rbind]. intros X.
        destruct (reduce_keeps _ _ _ _ _ ER) as (K1 & K2 & _). cbn [with_sp p_pipe p_store] in K1, K2. rewrite <- K2.
        refine (IH1 start false None (with_sp q'' (jump start (p_sp q'') (-2))) b q _ X). cbn [with_sp p_pipe]. congruence.
    + rewrite exec_sbind. cbn [exec]. change (match_at the_trie the_tab (forget p1) 0) with (match_at the_trie the_tab p1 0).
      destruct (match_at the_trie the_tab p1 0) as [[ru sh]| |]; [|discriminate|discriminate]. cbn [rbind].
      match goal with |- match ?x with _ => _ end = _ -> _ => destruct x as [r|] end; [apply AP|]. apply IH1. exact OF.
  - intros start p a k b q O. cbn [Resolver.parseIRS Shared.parseS].
    fold (@Resolver.pass1_loop the_trie the_tab scst findBracket changeBracket). fold (@Shared.pass1S the_trie the_tab).
    cbv zeta. set (p0 := with_sp (with_depth p (S (p_depth p))) (S start)).
    change (with_sp (with_depth (forget p) (S (p_depth (forget p)))) (S start)) with (forget p0). change (p_store p) with (p_store p0).
    assert (O0 : p_pipe p0 = []) by exact O. clearbody p0. clear O p.
    rewrite exec_sbind. destruct (read_exec 3 p0 (p_store p0)) as [E1 _]. rewrite O0 in E1. rewrite E1. clear E1. destruct (read 3 p0) as [[k1 ok1] q1] eqn:ER.
    destruct (read_last _ _ _ _ _ O0 ER) as [O1 <-]. rewrite O1. clear ER O0 p0.
    destruct (if ok1 then pass1_loop n (S start) false None q1 else Ok (false, q1)) as [[b2 q2]| |] eqn:EB; [|discriminate|discriminate]. cbn [rbind].
    assert (E2 : exec (if ok1 then pass1S n (S start) false None (forget q1) else SDone (Ok (false, forget q1))) [] (p_store q1) = Some (Ok (b2, forget q2), [], p_store q2) /\ p_pipe q2 = []).
    { destruct ok1; [exact (IH1 _ _ _ _ _ _ O1 EB)|]. injection EB as <- <-. auto. }
    destruct E2 as [E2 O2]. rewrite exec_sbind, E2. cbn [exec]. change (p_depth (forget q2)) with (p_depth q2). clear E2 EB.
    destruct (if b2 || (p_depth q2 =? 1)%nat then pass2 n start (with_sp q2 start) else Ok q2) as [q3| |] eqn:EC; [|discriminate|discriminate]. cbn [rbind].
    assert (E3 : exec (if b2 || (p_depth q2 =? 1)%nat then pass2S n start (with_sp (forget q2) start) else SDone (Ok (forget q2))) [] (p_store q2) = Some (Ok (forget q3), [], p_store q3) /\ p_pipe q3 = []).
    { destruct (_ || _).
      - exact (pass2_last the_trie the_tab n start (with_sp q2 start) q3 O2 EC).
      - injection EC as <-. auto. }
    destruct E3 as [E3 O3]. rewrite exec_sbind, E3, exec_sbind. cbn [exec].
    change (p_depth (forget q3)) with (p_depth q3). change (p_stack (forget q3)) with (p_stack q3). change (p_sp (forget q3)) with (p_sp q3).
    match goal with |- rbind ?x _ = _ -> _ => destruct x as [result| |] eqn:EX end; [|discriminate|discriminate]. cbn [rbind]. intros X. injection X as <- <- <- <-.
    split; [reflexivity|exact O3].
Qed.

(* ---- what is in the channel ---- *)
Definition piped (p : pst scst) : Prop :=
  (p_pipe p = [] /\ p_eof p = true) \/ (p_eof p = false /\ exists body stp, p_pipe p = body ++ [stp] /\ Forall (fun s => clz s <> cNULL) body /\ clz stp = cNULL).
Lemma read_piped n p k b q : piped p -> read n p = (k, b, q) -> piped q.
Proof.
  unfold read. intros P. destruct (_ || _) eqn:EO; [intros X; injection X as <- <- <-; auto|]. destruct (read_loop n p) as [j r] eqn:ER. intros X. injection X as <- <- <-.
  destruct P as [[_ P]|P]; [rewrite P, orb_true_r in EO; discriminate|]. clear EO.
  revert p j r P ER. induction n as [|n IH]; intros p j r P ER; cbn [read_loop] in ER; [injection ER as <- <-; right; exact P|].
  destruct P as (E & body & stp & P & F & N). rewrite P in ER.
  destruct body as [|s body]; cbn [app receive] in ER.
  - rewrite N in ER. change (cNULL =? cNULL) with true in ER. injection ER as <- <-. left. split; reflexivity.
  - pose proof (Forall_inv F) as F1. cbn beta in F1. apply Z.eqb_neq in F1. rewrite F1 in ER. destruct (read_loop n _) as [k q] eqn:EQ. injection ER as <- <-.
    apply IH in EQ; [exact EQ|]. split; [exact E|]. exists body, stp. split; [reflexivity|]. split; [exact (Forall_inv_tail F)|exact N].
Qed.
Lemma fill_piped p : piped p -> piped (fill p).
Proof. intros P. unfold fill. destruct (read _ p) as [[k b] q] eqn:E. exact (read_piped _ _ _ _ _ P E). Qed.
Lemma piped_open p : piped p -> p_pipe p <> [] -> p_eof p = false.
Proof. intros [[P _]|[E _]] H; [contradiction|exact E]. Qed.
Lemma piped_shut p : piped p -> p_pipe p = [] -> p_eof p = true.
Proof. intros [[_ P]|(_ & body & stp & E & _)] H; [exact P|]. rewrite H in E. destruct body; discriminate. Qed.
Lemma piped_eof p : piped p -> p_eof p = true -> p_pipe p = [].
Proof. intros [[P _]|[E _]] H; [exact P|congruence]. Qed.
Lemma read_shut n (p : pst scst) : p_eof p = true -> read n p = (0%nat, false, p).
Proof. intros E. unfold read. rewrite E, orb_true_r. reflexivity. Qed.
Lemma fill_shut (p : pst scst) : p_eof p = true -> fill p = p.
Proof. intros E. unfold fill. rewrite read_shut by exact E. reflexivity. Qed.

(* ---- pass 1 in a sequence with d initiators open ---- *)
Definition inseq (d : nat) (u : list scrap) (p : pst scst) : Prop :=
  exists w post, p_stack p = u ++ w ++ post /\ p_sp p = (length u + length w)%nat /\ Forall (open d) w /\ clean d (post ++ p_pipe p) /\
    Forall good (w ++ post) /\ Forall good0 (p_pipe p).

Lemma inseq_fill d u p : inseq d u p -> inseq d u (fill p) /\ p_depth (fill p) = p_depth p /\ p_store (fill p) = p_store p /\
  (forall s t, skipn (p_sp p) (p_stack p) = s :: t -> exists t', skipn (p_sp (fill p)) (p_stack (fill p)) = s :: t').
Proof.
  intros (w & post & A & B & C & D & E & F). destruct (fill_took p) as (T1 & T2 & T3 & more & T4 & T5 & T6).
  split; [|split; [exact T2|split; [exact T3|]]].
  - exists w, (post ++ more). rewrite T4, A, T1. split; [rewrite !app_assoc; reflexivity|]. split; [exact B|]. split; [exact C|].
    destruct (T5 F) as [G1 G2]. split; [rewrite <- app_assoc; apply T6, D|]. split; [|exact G2]. rewrite app_assoc. apply Forall_app. auto.
  - intros s t H. rewrite T1, T4. exists (t ++ more). rewrite skipn_app_le; [rewrite H; reflexivity|]. rewrite A, B, !app_length. lia.
Qed.

Definition behind (d : nat) (u : list scrap) (q : pst scst) : Prop :=
  exists w pdi post, p_stack q = u ++ w ++ pdi :: post /\ p_sp q = (length u + length w + 1)%nat /\ clz pdi = cPDI /\ Forall (open d) w /\
    clean (pred d) (post ++ p_pipe q) /\ Forall good (w ++ pdi :: post) /\ Forall good0 (p_pipe q).

Lemma clean_init d s t : isinit s = true -> clean d (s :: t) -> clean (S d) t.
Proof.
  intros I C. destruct (init_iso _ I) as [I1 I2]. cbn [clean] in C. apply Z.eqb_neq in I2. rewrite I2, I1 in C. exact C.
Qed.

Lemma parse_mixed : forall n,
  (forall d u walk short p b q, inseq d u p -> piped p -> (walk = true -> exists s t, skipn (p_sp p) (p_stack p) = s :: t /\ short = rule_for stored [clz s]) ->
    (1 <= p_depth p)%nat ->  not_behind_pdi u ->
    pass1_loop n (length u) walk short p = Ok (b, q) ->
    runs (pass1S n (length u) walk short (forget p)) (p_pipe p) (p_store p) (Ok (b, forget q), p_pipe q, p_store q) /\
    (p_pipe q = [] \/ (b = true /\ piped q /\ p_depth q = p_depth p /\ p_store q = p_store p /\ behind d u q))) /\
  (forall d u i post p a k b q, p_stack p = u ++ i :: post -> p_sp p = length u -> isinit i = true -> clean (S d) (post ++ p_pipe p) ->
    Forall good (i :: post) -> Forall good0 (p_pipe p) -> piped p -> (1 <= p_depth p)%nat -> not_behind_pdi u ->
    parseIRS n (length u) p = Ok (a, k, b, q) ->
    runs (parseS n (length u) (forget p)) (p_pipe p) (p_store p) (Ok (a, k, b, forget q), p_pipe q, p_store q) /\
    (p_pipe q = [] \/ (b = true /\ piped q /\ p_depth q = p_depth p /\ p_store q = p_store p /\
      exists w pdi post x, p_stack q = u ++ i :: w ++ pdi :: post /\ a = [x] /\ clz x = cNI /\ good x /\ k = (length w + 2)%nat /\
        clean d (post ++ p_pipe q) /\ Forall good post /\ Forall good0 (p_pipe q)))).
Proof.
  assert (LAST1 : forall n start walk short p b q, p_pipe p = [] -> pass1_loop n start walk short p = Ok (b, q) ->
    runs (pass1S n start walk short (forget p)) (p_pipe p) (p_store p) (Ok (b, forget q), p_pipe q, p_store q) /\ p_pipe q = []).
  { intros n start walk short p b q E X. destruct (proj1 (parse_last n) _ _ _ _ _ _ E X) as [A B]. rewrite E, B. split; [|reflexivity]. split; [exact A|apply still_end]. }
  assert (LAST2 : forall n start p a k b q, p_pipe p = [] -> parseIRS n start p = Ok (a, k, b, q) ->
    runs (parseS n start (forget p)) (p_pipe p) (p_store p) (Ok (a, k, b, forget q), p_pipe q, p_store q) /\ p_pipe q = []).
  { intros n start p a k b q E X. destruct (proj2 (parse_last n) _ _ _ _ _ _ E X) as [A B]. rewrite E, B. split; [|reflexivity]. split; [exact A|apply still_end]. }
  induction n as [|n [IH1 IH2]]; [split; discriminate|]. split.
  - intros d u walk short p b q IS PI WK DP NB X0.
    assert (DEC : forall p : pst scst, p_pipe p = [] \/ p_pipe p <> []) by (intros p'; destruct (p_pipe p'); [left; reflexivity|right; discriminate]).
    revert X0. cbn [Resolver.pass1_loop Shared.pass1S].
    fold (@Resolver.parseIRS the_trie the_tab scst findBracket changeBracket). fold (@Shared.parseS the_trie the_tab). cbv zeta. intros X0.
    destruct (inseq_fill _ _ _ IS) as (IS1 & D1 & S1 & SK). pose proof (fill_piped _ PI) as PI1.
    assert (WK1 : walk = true -> exists s t, skipn (p_sp (fill p)) (p_stack (fill p)) = s :: t /\ short = rule_for stored [clz s]).
    { intros HW. destruct (WK HW) as (s & t & W1 & W2). destruct (SK _ _ W1) as (t' & W3). eauto. }
    match goal with |- ?P /\ ?Q => enough (FL : runs (
       if (length (p_stack (fill p)) =? p_sp (fill p))%nat then SDone (if p_eof (fill p) then Ok (false, forget (fill p)) else Panic)
       else if walk then
        match (match short with Some r => if 1 <? pass r then None else Some r | None => None end) with
        | None =>
            let% s := SDone (lift (nth_error (p_stack (fill p)) (p_sp (fill p)))) in
            if clz s =? cPDI then SDone (Ok (true, with_sp (forget (fill p)) (S (p_sp (fill p)))))
            else if isisolate s then
              let start := p_sp (fill p) in
              let% (rhs, runlen, ok, p) := parseS n start (forget (fill p)) in
              let p := with_sp p start in
              if ok then
                let% p := SDone (lift (reduce p runlen rhs (length u))) in
                pass1S n (length u) false None p
              else if (runlen =? 0)%nat then SDone Panic
              else
                let% rhs := SDone (match rhs with x :: t => Ok (with_clz x cNI :: t) | [] => Panic end) in
                let% p := SDone (lift (reduce p runlen rhs (length u))) in
                pass1S n (length u) false None (with_sp p (jump (length u) (p_sp p) (-2)))
            else pass1S n (length u) false None (with_sp (forget (fill p)) (S (p_sp (fill p))))
        | Some r => let% p := apply_ruleS (forget (fill p)) r (length u) (length u) in pass1S n (length u) false None p
        end
      else
        let% (rule, short) := SDone (match_at the_trie the_tab (fill p) 0) in
        match (match rule with Some r => if 1 <? pass r then None else Some r | None => None end) with
        | None => pass1S n (length u) true short (forget (fill p))
        | Some r => let% p := apply_ruleS (forget (fill p)) r (length u) (length u) in pass1S n (length u) false None p
        end) (p_pipe (fill p)) (p_store (fill p)) (Ok (b, forget q), p_pipe q, p_store q) /\
      (p_pipe q = [] \/ (b = true /\ piped q /\ p_depth q = p_depth (fill p) /\ p_store q = p_store (fill p) /\ behind d u q))) end.
    { destruct FL as [FL1 FL2]. split; [|rewrite <- D1, <- S1; exact FL2]. eapply runs_sbind; [apply fill_runs|]. apply runs_tau. rewrite <- S1. exact FL1. }
    rewrite <- D1 in DP. clear WK SK IS PI D1 S1. set (p1 := fill p) in *. clearbody p1. clear p. rename WK1 into WK.
    destruct IS1 as (w & post & ES & EP & OW & CL & GD & GP).
    destruct (DEC p1) as [EPP|NE].
    { (* nothing more to read *)
      pose proof (piped_shut _ PI1 EPP) as EF. pose proof (fill_shut _ EF) as FS.
      assert (X1 : pass1_loop (S n) (length u) walk short p1 = Ok (b, q)).
      { cbn [Resolver.pass1_loop]. fold (@Resolver.parseIRS the_trie the_tab scst findBracket changeBracket). rewrite FS. exact X0. }
      destruct (LAST1 _ _ _ _ _ _ _ EPP X1) as [[R _] L]. split; [|left; exact L].
      cbn [Shared.pass1S] in R. fold (@Shared.parseS the_trie the_tab) in R. rewrite exec_sbind in R.
      destruct (fill_exec p1 (p_store p1)) as [FE _]. rewrite FS in FE. rewrite FE in R. cbn [exec] in R. split; [exact R|rewrite EPP; apply still_end]. }
    assert (EF : p_eof p1 = false) by (exact (piped_open _ PI1 NE)).
    rewrite EF in X0 |- *.
    destruct (_ =? _)%nat eqn:LE; [discriminate|]. apply Nat.eqb_neq in LE.
    destruct post as [|s t]; [rewrite ES, app_nil_r, app_length in LE; lia|]. clear LE.
    assert (ES' : p_stack p1 = (u ++ w) ++ s :: t) by (rewrite <- app_assoc; exact ES).
    assert (EP' : p_sp p1 = length (u ++ w)) by (rewrite app_length; exact EP).
    assert (SK : skipn (p_sp p1) (p_stack p1) = s :: t) by (rewrite ES', EP', skipn_app, skipn_all, Nat.sub_diag; reflexivity).
    assert (EN : nth_error (p_stack p1) (p_sp p1) = Some s) by (rewrite ES', EP'; apply nth_at).
    apply Forall_app in GD. destruct GD as [GW GT].
    (* application of a rule *)
    assert (AP : forall r m v, In r stored -> s :: t = m ++ v -> map clz m = lhs r -> pass r = 1 ->
      (let* p := apply_rule p1 r (length u) (length u) in pass1_loop n (length u) false None p) = Ok (b, q) ->
      runs (let% p := apply_ruleS (forget p1) r (length u) (length u) in pass1S n (length u) false None p) (p_pipe p1) (p_store p1) (Ok (b, forget q), p_pipe q, p_store q) /\
      (p_pipe q = [] \/ (b = true /\ piped q /\ p_depth q = p_depth p1 /\ p_store q = p_store p1 /\ behind d u q))).
    { intros r m v IR EM M P X. rewrite EM in GT, ES', CL. apply Forall_app in GT. destruct GT as [GM GV].
      destruct (rule1 r m v IR P M GM) as (NW & j & LJ & AC).
      pose proof (apply_meld p1 r (u ++ w) m v (merge cNI m) j false (length u) (length u) ES' EP' (lhs_nonempty r m M)
          ltac:(unfold lhsLen; rewrite <- M, map_length; reflexivity) ltac:(rewrite app_length; lia) AC) as AA.
      rewrite AA in X. cbn [rbind] in X.
      set (p2 := with_sp (with_stack p1 ((u ++ w) ++ merge cNI m :: v)) (jump (length u) (length (u ++ w)) j)) in *.
      rewrite <- app_assoc in CL. destruct (clean_drop d m (v ++ p_pipe p1) (lhs_noniso r m IR M) CL) as [_ CV].
      assert (OM : open d (merge cNI m)) by (split; [reflexivity|right; reflexivity]).
      assert (IS2 : inseq d u p2).
      { set (k := (p_sp p2 - length u)%nat).
        assert (LK : (p_sp p2 = length u + k /\ k <= length w)%nat).
        { unfold k, p2. cbn [with_sp p_sp]. rewrite app_length. unfold jump. lia. }
        exists (firstn k w), (skipn k w ++ merge cNI m :: v). unfold p2 at 1. cbn [with_sp with_stack p_stack].
        split; [rewrite <- app_assoc; f_equal; rewrite app_assoc, firstn_skipn; reflexivity|].
        split; [rewrite firstn_length; lia|]. split; [apply Forall_firstn, OW|].
        split; [|split; [|exact GP]].
        - change (p_pipe p2) with (p_pipe p1). rewrite <- app_assoc. apply clean_open; [apply Forall_skipn, OW|]. cbn [app].
          apply (clean_open d [merge cNI m]); [repeat constructor; apply OM|exact CV].
        - rewrite app_assoc, firstn_skipn. apply Forall_app. split; [exact GW|]. constructor; [|exact GV].
          apply good_merge; [apply nl_NI|exact (lhs_nonempty r m M)|exact GM]. }
      destruct (IH1 d u false None p2 b q IS2 PI1 ltac:(discriminate) DP NB X) as [R REST].
      split; [|exact REST]. eapply runs_sbind; [exact (apply_runs _ _ _ _ _ (p_pipe p1) (p_store p1) NW AA)|exact R]. }
    (* one step ahead *)
    assert (STEP : isisolate s = false -> pass1_loop n (length u) false None (with_sp p1 (S (p_sp p1))) = Ok (b, q) ->
      runs (pass1S n (length u) false None (with_sp (forget p1) (S (p_sp p1)))) (p_pipe p1) (p_store p1) (Ok (b, forget q), p_pipe q, p_store q) /\
      (p_pipe q = [] \/ (b = true /\ piped q /\ p_depth q = p_depth p1 /\ p_store q = p_store p1 /\ behind d u q))).
    { intros NI X. change ((s :: t) ++ p_pipe p1) with ([s] ++ t ++ p_pipe p1) in CL. destruct (clean_drop d [s] _ ltac:(repeat constructor; exact NI) CL) as [OS CT].
      refine (IH1 d u false None (with_sp p1 (S (p_sp p1))) b q _ PI1 ltac:(discriminate) DP NB X).
      exists (w ++ [s]), t. cbn [with_sp p_stack p_sp p_pipe]. split; [rewrite ES, <- app_assoc; reflexivity|]. split; [rewrite app_length; cbn [length]; lia|].
      split; [apply Forall_app; auto|]. split; [exact CT|]. split; [|exact GP]. rewrite <- app_assoc. apply Forall_app. auto. }
    destruct walk.
    + destruct (WK eq_refl) as (s' & t' & W1 & ->). rewrite SK in W1. injection W1 as <- <-.
      match type of X0 with match ?x with _ => _ end = _ => destruct x as [r|] eqn:EX end.
      * assert (rule_for stored [clz s] = Some r /\ pass r = 1) as [EX' PR].
        { destruct (rule_for stored [clz s]) as [r'|]; [|discriminate]. destruct (pass_12 r') as [P|P]; rewrite P in EX; cbn in EX; [|discriminate]. injection EX as <-. auto. }
        destruct (short_found (s :: t) r EX') as (IR & m & v & EM & M). exact (AP r m v IR EM M PR X0).
      * rewrite EN in X0. cbn [lift rbind] in X0.
        match goal with |- ?P /\ ?Q => enough (FL : runs (
            if clz s =? cPDI then SDone (Ok (true, with_sp (forget p1) (S (p_sp p1))))
            else if isisolate s then
              let start := p_sp p1 in
              let% (rhs, runlen, ok, p) := parseS n start (forget p1) in
              let p := with_sp p start in
              if ok then
                let% p := SDone (lift (reduce p runlen rhs (length u))) in
                pass1S n (length u) false None p
              else if (runlen =? 0)%nat then SDone Panic
              else
                let% rhs := SDone (match rhs with x :: t => Ok (with_clz x cNI :: t) | [] => Panic end) in
                let% p := SDone (lift (reduce p runlen rhs (length u))) in
                pass1S n (length u) false None (with_sp p (jump (length u) (p_sp p) (-2)))
            else pass1S n (length u) false None (with_sp (forget p1) (S (p_sp p1)))) (p_pipe p1) (p_store p1) (Ok (b, forget q), p_pipe q, p_store q) /\ Q) end.
        { destruct FL as [FL1 FL2]. split; [|exact FL2]. rewrite EN. eapply runs_sbind; [apply runs_done|exact FL1]. }
        destruct (clz s =? cPDI) eqn:EPD.
        { injection X0 as <- <-. split; [apply runs_done|]. right. split; [reflexivity|]. split; [exact PI1|]. split; [reflexivity|]. split; [reflexivity|].
          exists w, s, t. cbn [with_sp p_stack p_sp p_pipe]. split; [exact ES|]. split; [lia|]. split; [apply Z.eqb_eq, EPD|]. split; [exact OW|].
          cbn [app clean] in CL. rewrite EPD in CL. split; [exact CL|]. split; [|exact GP]. apply Forall_app. auto. }
        destruct (isisolate s) eqn:ISO; [|exact (STEP eq_refl X0)].
        assert (II : isinit s = true) by (unfold isinit; rewrite ISO, EPD; reflexivity).
        destruct (parseIRS n (p_sp p1) p1) as [[[[rhs runlen] ok'] q']| |] eqn:EI; [|discriminate|discriminate]. cbn [rbind] in X0.
        assert (NB2 : not_behind_pdi (u ++ w)).
        { intros u0 x H. destruct w as [|y w' _] using rev_ind; [rewrite app_nil_r in H; exact (NB u0 x H)|]. rewrite app_assoc in H. apply app_inj_tail in H. destruct H as [_ <-].
          apply Forall_app in OW. destruct OW as [_ OW]. pose proof (Forall_inv OW) as [OY _]. intros E. apply pdi_iso in E. destruct E as [E _]. congruence. }
        pose proof EI as EI0. rewrite EP' in EI0.
        destruct (IH2 d (u ++ w) s t p1 rhs runlen ok' q' ES' EP' II (clean_init _ _ _ II CL) GT GP PI1 DP NB2 EI0) as [R1 REST].
        rewrite <- EP' in R1. destruct REST as [LQ|(-> & PI2 & D2 & S2 & w2 & pdi & post2 & x & ES2 & -> & CX & GX & -> & CL2 & GP2 & GG2)].
        -- (* the text has ended *)
           destruct ok'.
           ++ destruct (reduce (with_sp q' (p_sp p1)) runlen rhs (length u)) as [q''|] eqn:ER; [|discriminate]. cbn [lift rbind] in X0.
              destruct (reduce_keeps _ _ _ _ _ ER) as (K1 & K2 & _). cbn [with_sp p_pipe p_store] in K1, K2. rewrite LQ in K1.
              destruct (LAST1 _ _ _ _ _ _ _ K1 X0) as [R2 L2]. split; [|left; exact L2].
              eapply runs_sbind; [exact R1|]. cbv beta iota zeta. rewrite LQ. eapply runs_sbind; [|rewrite K1, K2 in R2; exact R2].
              change (with_sp (forget q') (p_sp p1)) with (forget (with_sp q' (p_sp p1))). rewrite reduce_forget, ER. apply runs_done.
           ++ destruct (runlen =? 0)%nat eqn:RZ; [discriminate|]. destruct rhs as [|x rhs]; [discriminate|]. cbn [rbind] in X0.
              destruct (reduce (with_sp q' (p_sp p1)) runlen _ (length u)) as [q''|] eqn:ER; [|discriminate]. cbn [lift rbind] in X0.
              destruct (reduce_keeps _ _ _ _ _ ER) as (K1 & K2 & _). cbn [with_sp p_pipe p_store] in K1, K2. rewrite LQ in K1.
              destruct (LAST1 _ _ _ _ (with_sp q'' (jump (length u) (p_sp q'') (-2))) _ _ K1 X0) as [R2 L2]. split; [|left; exact L2].
              eapply runs_sbind; [exact R1|]. cbv beta iota zeta. rewrite RZ. eapply runs_sbind; [apply runs_done|]. cbv beta.
              rewrite LQ. cbn [with_sp p_pipe p_store] in R2. rewrite K1, K2 in R2.
              eapply runs_sbind; [change (with_sp (forget q') (p_sp p1)) with (forget (with_sp q' (p_sp p1))); rewrite reduce_forget, ER; apply runs_done|exact R2].
        -- (* the isolate is put into one scrap *)
           assert (ER : reduce (with_sp q' (p_sp p1)) (length w2 + 2) [x] (length u) = Some (with_stack (with_sp q' (p_sp p1)) ((u ++ w) ++ x :: post2))).
           { replace (length w2 + 2)%nat with (length (s :: w2 ++ [pdi])) by (cbn [length]; rewrite app_length; cbn [length]; lia).
             apply reduce_meld; [|exact EP'|discriminate|rewrite app_length; lia]. cbn [with_sp p_stack]. rewrite ES2. cbn [app]. rewrite <- (app_assoc w2). reflexivity. }
           rewrite ER in X0. cbn [lift rbind] in X0. set (p2 := with_stack (with_sp q' (p_sp p1)) ((u ++ w) ++ x :: post2)) in *.
           assert (IS2 : inseq d u p2).
           { exists w, (x :: post2). unfold p2. cbn [with_stack with_sp p_stack p_sp p_pipe]. split; [rewrite <- app_assoc; reflexivity|]. split; [exact EP|]. split; [exact OW|].
             split; [|split; [|exact GG2]].
             - apply (clean_open d [x]); [|exact CL2]. constructor; [|constructor]. unfold open, isisolate, isbracket. rewrite CX. split; [reflexivity|right; reflexivity].
             - apply Forall_app. auto. }
           assert (DP2 : (1 <= p_depth p2)%nat) by (unfold p2; cbn [with_stack with_sp p_depth]; lia).
           destruct (IH1 d u false None p2 b q IS2 PI2 ltac:(discriminate) DP2 NB X0) as [R2 REST2]. unfold p2 in REST2. cbn [with_stack with_sp p_depth p_store] in REST2.
           rewrite D2, S2 in REST2. split; [|exact REST2].
           eapply runs_sbind; [exact R1|]. cbv beta iota zeta. eapply runs_sbind; [|exact R2].
           change (with_sp (forget q') (p_sp p1)) with (forget (with_sp q' (p_sp p1))). rewrite reduce_forget, ER. apply runs_done.
    + pose proof (match_spec_at p1 (u ++ w) (s :: t) 0 ES' EP' (good_class _ GT) ltac:(lia)) as MA. rewrite MA in X0 |- *. cbn [rbind] in X0.
      match type of X0 with match ?x with _ => _ end = _ => destruct x as [r|] eqn:EX end.
      * assert (long_rule stored (map clz (s :: t)) = Some r /\ pass r = 1) as [EX' PR].
        { destruct (long_rule stored (map clz (s :: t))) as [r'|]; [|discriminate]. destruct (pass_12 r') as [P|P]; rewrite P in EX; cbn in EX; [|discriminate]. injection EX as <-. auto. }
        destruct (long_found (s :: t) r EX') as (IR & m & v & EM & M). destruct (AP r m v IR EM M PR X0) as [R REST]. split; [|exact REST].
        eapply runs_sbind; [apply runs_done|]. cbv beta iota. rewrite EX. exact R.
      * assert (IS2 : inseq d u p1) by (exists w, (s :: t); split; [exact ES|]; split; [exact EP|]; split; [exact OW|]; split; [exact CL|]; split; [apply Forall_app; auto|exact GP]).
        destruct (IH1 d u true (rule_for stored [clz s]) p1 b q IS2 PI1 ltac:(intros _; exists s, t; auto) DP NB X0) as [R REST]. split; [|exact REST].
        eapply runs_sbind; [apply runs_done|]. cbv beta iota. rewrite EX. exact R.
  - intros d u i post p a k b q ES EP II CL GD GP PI DP NB X0.
    assert (DEC : p_pipe p = [] \/ p_pipe p <> []) by (destruct (p_pipe p); [left; reflexivity|right; discriminate]).
    destruct DEC as [EPP|NE]; [destruct (LAST2 _ _ _ _ _ _ _ EPP X0) as [R L]; auto|].
    revert X0. cbn [Resolver.parseIRS Shared.parseS].
    fold (@Resolver.pass1_loop the_trie the_tab scst findBracket changeBracket). fold (@Shared.pass1S the_trie the_tab).
    cbv zeta. set (p0 := with_sp (with_depth p (S (p_depth p))) (S (length u))).
    change (with_sp (with_depth (forget p) (S (p_depth (forget p)))) (S (length u))) with (forget p0).
    destruct (read 3 p0) as [[k1 ok1] q1] eqn:ER.
    assert (ok1 = true) as ->.
    { unfold read in ER. change (p_eof p0) with (p_eof p) in ER. rewrite (piped_open _ PI NE) in ER. cbn [Nat.eqb orb] in ER. destruct (read_loop 3 p0). congruence. }
    pose proof (read_piped 3 p0 _ _ _ PI ER) as PI1.
    destruct (read_took 3 p0 _ _ _ ER) as (T1 & T2 & T3 & more & T4 & T5 & T6).
    unfold p0 in T1, T2, T3, T4, T5, T6. cbn [with_sp with_depth p_sp p_depth p_store p_stack p_pipe] in T1, T2, T3, T4, T5, T6.
    destruct (T5 GP) as [G1 G2]. destruct (init_iso _ II) as [I1 I2].
    assert (IS : inseq (S d) (u ++ [i]) q1).
    { exists [], (post ++ more). cbn [app]. split; [rewrite T4, ES; rewrite <- !app_assoc; reflexivity|]. split; [rewrite T1, app_length; cbn [length]; lia|].
      split; [constructor|]. split; [rewrite <- app_assoc; apply T6, CL|]. split; [|exact G2]. apply Forall_app. split; [exact (Forall_inv_tail GD)|exact G1]. }
    assert (NB1 : not_behind_pdi (u ++ [i])) by (intros u0 x H; apply app_inj_tail in H; destruct H as [_ <-]; exact I2).
    intros X0. destruct (pass1_loop n (S (length u)) false None q1) as [[b2 q2]| |] eqn:EB; [|discriminate|discriminate]. cbn [rbind] in X0.
    assert (LU : S (length u) = length (u ++ [i])) by (rewrite app_length; cbn [length]; lia).
    pose proof EB as EB0. rewrite LU in EB0.
    destruct (IH1 (S d) (u ++ [i]) false None q1 b2 q2 IS PI1 ltac:(discriminate) ltac:(lia) NB1 EB0) as [R1 REST]. rewrite <- LU in R1. rewrite T3 in R1.
    pose proof (read_runs 3 p0 (p_store p) _ _ _ ER) as R0. change (p_pipe p0) with (p_pipe p) in R0.
    destruct (if b2 || (p_depth q2 =? 1)%nat then pass2 n (length u) (with_sp q2 (length u)) else Ok q2) as [q3| |] eqn:EC; [|discriminate|discriminate]. cbn [rbind] in X0.
    match type of X0 with rbind ?x _ = _ => destruct x as [result| |] eqn:EX end; [|discriminate|discriminate]. cbn [rbind] in X0. injection X0 as <- <- <- <-.
    match goal with |- ?P /\ ?Q => enough (FL : runs (if b2 || (p_depth q2 =? 1)%nat then pass2S n (length u) (with_sp (forget q2) (length u)) else SDone (Ok (forget q2)))
        (p_pipe q2) (p_store q2) (Ok (forget q3), p_pipe q3, p_store q3) /\ Q) end.
    { destruct FL as [R2 FL]. split; [|exact FL]. eapply runs_sbind; [exact R0|]. cbv beta iota. eapply runs_sbind; [exact R1|]. cbv beta iota. apply runs_tau.
      eapply runs_sbind; [exact R2|]. cbv beta iota.
      change (p_depth (forget q3)) with (p_depth q3). change (p_stack (forget q3)) with (p_stack q3). change (p_sp (forget q3)) with (p_sp q3).
      rewrite EX. eapply runs_sbind; apply runs_done. }
    destruct REST as [LQ|(-> & PI2 & D2 & S2 & w & pdi & post2 & ES2 & EP2 & CP & OW & CL2 & GD2 & GG2)].
    + assert (E3 : exec (if b2 || (p_depth q2 =? 1)%nat then pass2S n (length u) (with_sp (forget q2) (length u)) else SDone (Ok (forget q2))) [] (p_store q2) = Some (Ok (forget q3), [], p_store q3) /\ p_pipe q3 = []).
      { destruct (_ || _).
        - exact (pass2_last the_trie the_tab n (length u) (with_sp q2 (length u)) q3 LQ EC).
        - injection EC as <-. auto. }
      destruct E3 as [E3 O3]. cbn [with_depth p_pipe]. rewrite LQ, O3. split; [|left; reflexivity]. split; [exact E3|apply still_end].
    + cbn [orb] in EC |- *. rewrite <- app_assoc in ES2. cbn [app] in ES2.
      assert (OW1 : Forall (open 1) w) by (eapply Forall_impl; [|exact OW]; intros x [O1 [O2|O2]]; [discriminate|split; auto]).
      destruct (pass2_inside n u i w pdi post2 (with_sp q2 (length u)) q3 (p_pipe q2) (p_store q2) NB II CP OW1 ltac:(constructor; [exact (Forall_inv GD)|exact GD2]) ES2
        ltac:(left; reflexivity) EC) as (R2 & Q1 & Q2 & Q3 & w' & ES3 & OW3 & GW3 & EP3). cbn [with_sp p_pipe p_depth p_store] in Q1, Q2, Q3.
      rewrite Q1, Q3. split; [exact R2|]. right. cbn [with_depth p_pipe p_depth p_store p_stack]. rewrite Q1.
      split; [reflexivity|]. split.
      * unfold piped. cbn [with_depth p_pipe p_eof]. rewrite Q1, (pass2_eof _ _ _ _ EC). exact PI2.
      * split; [lia|]. split; [congruence|]. exists w', pdi, post2.
        replace (1 <? p_depth q3)%nat with true in EX by (symmetry; apply Nat.ltb_lt; lia). cbn [andb] in EX.
        replace (p_sp q3 - length u)%nat with (length w' + 2)%nat in EX |- * by lia.
        rewrite ES3, nth_at in EX. cbn [lift rbind] in EX.
        replace (length u + (length w' + 2) - 1)%nat with (length (u ++ i :: w')) in EX by (rewrite app_length; cbn [length]; lia).
        replace (u ++ i :: w' ++ pdi :: post2) with ((u ++ i :: w') ++ pdi :: post2) in EX by (rewrite <- app_assoc; reflexivity). rewrite nth_at in EX. cbn [lift rbind] in EX.
        injection EX as <-. eexists. split; [exact ES3|]. split; [reflexivity|]. split; [reflexivity|]. split; [split; [apply nl_NI|left; reflexivity]|].
        split; [reflexivity|]. split; [exact CL2|]. split; [|exact GG2]. apply Forall_app in GD2. destruct GD2 as [_ GD2]. exact (Forall_inv_tail GD2).
Qed.

(* ---- all of a paragraph ---- *)
Theorem resolve_mixed n md ss fin lv body stp : ss = body ++ [stp] -> Forall (fun s => clz s <> cNULL) body -> clz stp = cNULL ->
  Forall good0 ss -> clean 0 ss ->
  ResolveLevels the_trie the_tab findBracket changeBracket n md ss fin = Ok (lv, []) ->
  exists st, runs (ResolveS the_trie the_tab n md) ss fin (Ok lv, [], st).
Proof.
  intros ESS BN SN F C E. unfold ResolveLevels in E. unfold ResolveS. cbv zeta in *. set (i := initialOuterScrap md true) in *.
  destruct n as [|n]; [discriminate|]. rewrite parseIRS_eq in E. cbv zeta in E. cbn [Shared.parseS].
  fold (@Shared.pass1S the_trie the_tab).
  set (p0 := with_sp (with_depth (mkp [i] 0 false ss 0 fin) (S (p_depth (mkp [i] 0 false ss 0 fin)))) 1) in *.
  cbv zeta. change (with_sp (with_depth (mkp [i] 0 false [] 0 tt) (S (p_depth (mkp [i] 0 false [] 0 tt)))) 1) with (forget p0). change ss with (p_pipe p0).
  assert (PI0 : piped p0) by (right; split; [reflexivity|]; exists body, stp; auto).
  destruct (read 3 p0) as [[k1 ok1] q1] eqn:ER. pose proof (read_runs 3 p0 fin _ _ _ ER) as R0.
  destruct (read_took 3 p0 _ _ _ ER) as (T1 & T2 & T3 & more & T4 & T5 & T6). destruct (T5 F) as [G1 G2].
  change (p_sp p0) with 1%nat in T1. change (p_depth p0) with 1%nat in T2. change (p_store p0) with fin in T3. change (p_stack p0) with [i] in T4. change (p_pipe p0) with ss in T6.
  assert (ok1 = true) as ->.
  { unfold read in ER. cbn [Nat.eqb orb] in ER. change (p_eof p0) with false in ER. cbn [orb] in ER. destruct (read_loop 3 p0). congruence. }
  pose proof (read_piped 3 p0 _ _ _ PI0 ER) as PI1. clear ER. clearbody p0.
  assert (IS : inseq 0 [i] q1).
  { exists [], more. cbn [app]. split; [exact T4|]. split; [rewrite T1; reflexivity|]. split; [constructor|]. split; [apply (T6 0%nat []), C|]. auto. }
  assert (NB : not_behind_pdi [i]).
  { intros u0 x H. destruct u0 as [|? [|? ?]]; injection H as <-; try discriminate. subst i. unfold initialOuterScrap. destruct (m_r2l md); discriminate. }
  destruct (pass1_loop n 1 false None q1) as [[b2 q2]| |] eqn:EB; [|discriminate|discriminate]. cbn [rbind] in E.
  destruct (proj1 (parse_mixed n) 0%nat [i] false None q1 b2 q2 IS PI1 ltac:(discriminate) ltac:(lia) NB EB) as [R1 _]. cbn [length] in R1. rewrite T3 in R1.
  match type of E with rbind ?x _ = _ => destruct x as [[[[res runlen] b3] q4]| |] eqn:EQ end; [|discriminate|discriminate]. cbn [rbind] in E.
  destruct (zget res (zlen res - 1)) as [e|] eqn:EZ; [|discriminate]. cbn [lift rbind] in E. injection E as <- E4.
  destruct (if b2 || (p_depth q2 =? 1)%nat then pass2 n 0 (with_sp q2 0) else Ok q2) as [q3| |] eqn:EC; [|discriminate|discriminate]. cbn [rbind] in EQ.
  match type of EQ with rbind ?x _ = _ => destruct x as [result| |] eqn:EX end; [|discriminate|discriminate]. cbn [rbind] in EQ. injection EQ as <- <- <- <-.
  cbn [with_depth p_pipe] in E4.
  assert (LQ : p_pipe q2 = []).
  { destruct (_ || _); [pose proof (pass2_pipe _ _ _ _ _ _ EC) as EP; rewrite E4 in EP; symmetry; exact EP|injection EC as <-; exact E4]. }
  assert (E3 : exec (if b2 || (p_depth q2 =? 1)%nat then pass2S n 0 (with_sp (forget q2) 0) else SDone (Ok (forget q2))) [] (p_store q2) = Some (Ok (forget q3), [], p_store q3)).
  { destruct (_ || _).
    - exact (proj1 (pass2_last the_trie the_tab n 0 (with_sp q2 0) q3 LQ EC)).
    - injection EC as <-. reflexivity. }
  exists (p_store q3). rewrite LQ in R1.
  eapply (runs_sbind _ _ _ _ (result, (p_sp q3 - 0)%nat, b2, forget (with_depth q3 (p_depth q3 - 1))) [] (p_store q3)).
  - eapply runs_sbind; [exact R0|]. cbv beta iota. eapply runs_sbind; [exact R1|]. cbv beta iota. apply runs_tau.
    eapply runs_sbind; [split; [exact E3|apply still_end]|]. cbv beta iota.
    change (p_depth (forget q3)) with (p_depth q3). change (p_stack (forget q3)) with (p_stack q3). change (p_sp (forget q3)) with (p_sp q3).
    rewrite EX. eapply runs_sbind; apply runs_done.
  - cbv beta iota. rewrite EZ. eapply runs_sbind; apply runs_done.
Qed.

(* ---- texts ---- *)
Definition initiator_class (c : Z) : bool := (c =? cLRI) || (c =? cRLI) || (c =? cFSI).
Definition bracket_class (c : Z) : bool := (c =? cBRACKO) || (c =? cBRACKC).
(* The class of a character for the nesting: a mark has the class of what it follows, except behind an
   isolate; behind FSI it counts as one more FSI. *)
Definition marked (prev c : Z) : Z :=
  if c =? cNSM then (if prev =? cLRI then cL else if prev =? cRLI then cR else if prev =? cPDI then cNI else prev) else c.
Definition enter (d : nat) (c : Z) : nat := if c =? cPDI then pred d else if initiator_class c then S d else d.
(* All brackets are outside of the isolates; d is the number of open initiators. *)
Fixpoint outside (d : nat) (prev : Z) (cs : list Z) : bool :=
  match cs with
  | [] => true
  | c :: t => let c := marked prev c in (negb (bracket_class c) || (d =? 0)%nat) && outside (enter d c) c t
  end.

Definition inert (c : Z) : Prop := initiator_class c = false /\ c <> cPDI /\ bracket_class c = false.
Definition alike (a b : Z) : Prop := a = b \/ (inert a /\ inert b).
Lemma alike_is a b c : alike a b -> initiator_class c = true \/ c = cPDI \/ bracket_class c = true -> (a =? c) = (b =? c).
Proof.
  intros [-> |[(A1 & A2 & A3) (B1 & B2 & B3)]] H; [reflexivity|]. destruct (a =? c) eqn:E1, (b =? c) eqn:E2; auto; exfalso.
  - apply Z.eqb_eq in E1. subst a. destruct H as [H|[H|H]]; congruence.
  - apply Z.eqb_eq in E2. subst b. destruct H as [H|[H|H]]; congruence.
Qed.
Lemma alike_marked a b c : alike a b -> alike (marked a c) (marked b c).
Proof.
  intros H. unfold marked. destruct (c =? cNSM); [|left; reflexivity].
  rewrite (alike_is a b cLRI H) by (left; reflexivity). rewrite (alike_is a b cRLI H) by (left; reflexivity). rewrite (alike_is a b cPDI H) by (right; left; reflexivity).
  repeat match goal with |- alike (if ?x then _ else _) _ => destruct x end; auto; left; reflexivity.
Qed.
Lemma alike_enter d a b : alike a b -> enter d a = enter d b /\ bracket_class a = bracket_class b.
Proof.
  intros [-> |[(A1 & A2 & A3) (B1 & B2 & B3)]]; [auto|]. unfold enter. apply Z.eqb_neq in A2, B2. rewrite A1, A2, A3, B1, B2, B3. auto.
Qed.
Lemma outside_alike : forall cs d a b, alike a b -> outside d a cs = outside d b cs.
Proof.
  induction cs as [|c cs IH]; intros d a b H; [reflexivity|]. cbn [outside]. cbv zeta. pose proof (alike_marked a b c H) as M.
  destruct (alike_enter d _ _ M) as [-> ->]. f_equal. apply IH, M.
Qed.
Lemma alike_W1to3 c cur : c <> cEN -> alike (marked (clz cur) c) (applyRulesW1to3 c cur).
Proof.
  intros H. unfold marked, applyRulesW1to3. destruct (c =? cNSM); [left; reflexivity|]. apply Z.eqb_neq in H. rewrite H. cbn [andb].
  destruct (c =? cAL) eqn:E1; [apply Z.eqb_eq in E1; subst c; right; repeat split; discriminate|].
  destruct (_ || _) eqn:E2; [|left; reflexivity]. right. split; [|repeat split; discriminate].
  apply orb_prop in E2. destruct E2 as [E2|E2]; [apply orb_prop in E2; destruct E2 as [E2|E2]|]; apply Z.eqb_eq in E2; subst c; repeat split; discriminate.
Qed.
Lemma clean_cons d s t : clean d (s :: t) <-> (bracket_class (clz s) = true -> d = 0%nat) /\ clean (enter d (clz s)) t.
Proof.
  cbn [clean]. unfold enter. change (isbracket s) with (bracket_class (clz s)).
  assert (IE : isisolate s = initiator_class (clz s) || (clz s =? cPDI)) by reflexivity.
  destruct (clz s =? cPDI) eqn:E1.
  - apply Z.eqb_eq in E1. rewrite E1. split; [intros H; split; [discriminate|exact H]|tauto].
  - rewrite orb_false_r in IE. rewrite IE. destruct (initiator_class (clz s)) eqn:E2.
    + split; [|tauto]. intros H. split; [|exact H]. intros B. exfalso. clear -E2 B. unfold initiator_class, bracket_class in *. generalize dependent (clz s). intros c E2 B.
      apply orb_prop in B. destruct B as [B|B]; apply Z.eqb_eq in B; subst c; discriminate.
    + split.
      * intros [[H|H] C]; (split; [|exact C]); [auto|congruence].
      * intros [H C]. split; [|exact C]. destruct (bracket_class (clz s)); auto.
Qed.

Section Text.
Context (md : mode) (props : Z -> Z * Z) (upper : Z -> bool).
Notation eff := (eff md props upper).
Notation para := (para md props).
Notation cls st := (map (fun x => eff (fst x)) (para (s_rest st))).

Definition follows (d : nat) (c : Z) (cs : list Z) : Prop :=
  numberless c /\ (bracket_class c = true -> d = 0%nat) /\ outside (enter d c) c cs = true /\ Forall numberless cs.
Lemma read_rune_cls st inp st' : read_rune md props st = (inp, st') ->
  match inp with None => True | Some (r, len, c) => cls st = test_class md upper r c :: cls st' end.
Proof.
  unfold read_rune. destruct (s_rest st) as [|[r len] t] eqn:E; [intros H; injection H as <- <-; exact Logic.I|].
  destruct (props r) as [c b] eqn:EP. cbn [ScannerProofs.para fst]. rewrite EP. cbn [fst].
  destruct ((c =? cB) && negb (m_ignore md)); intros H; injection H as <- <-; [exact Logic.I|]. cbn [map fst s_rest]. unfold ScannerProofs.eff at 1. rewrite EP. reflexivity.
Qed.
Lemma numberless_W1to3 c cur : numberless c -> numberless (clz cur) -> numberless (applyRulesW1to3 c cur).
Proof.
  intros (H1 & H2 & H3) H. unfold applyRulesW1to3. pose proof H2 as H2'. apply Z.eqb_neq in H2'. rewrite H2'. cbn [andb].
  repeat match goal with |- numberless (if ?b then _ else _) => destruct b end; auto; repeat split; try discriminate; try assumption; apply H1.
Qed.
(* The next class, and what it means for the nesting. *)
Lemma follows_next d cur c cs : follows d (clz cur) (c :: cs) -> follows (enter d (clz cur)) (applyRulesW1to3 c cur) cs.
Proof.
  intros (N & B & O & F). pose proof (Forall_inv F) as NC. cbn [outside] in O. cbv zeta in O. apply andb_prop in O. destruct O as [O1 O2].
  pose proof (alike_W1to3 c cur ltac:(exact (proj1 (proj2 NC)))) as AL. destruct (alike_enter (enter d (clz cur)) _ _ AL) as [E1 E2].
  split; [apply numberless_W1to3; assumption|]. split; [|split; [|exact (Forall_inv_tail F)]].
  - intros H. rewrite E2, H in O1. apply Nat.eqb_eq, O1.
  - rewrite <- E1. rewrite <- (outside_alike _ _ _ _ AL). exact O2.
Qed.
Lemma scan_clean : forall n st cur al ss d, scan_loop md props upper None n st cur al = Ok ss -> follows d (clz cur) (cls st) ->
  exists body, ss = body ++ [stopper] /\ Forall (fun s => numberless (clz s)) body /\ clean d ss.
Proof.
  induction n as [|n IH]; intros st cur al ss d E FO; [discriminate|]. cbn [scan_loop] in E.
  destruct (scan_step md props upper None st cur al) as [[out next]|] eqn:ES; [|discriminate]. cbn [lift rbind] in E.
  unfold scan_step in ES. cbn [nextRune] in ES. destruct (read_rune md props st) as [inp st1] eqn:ER. pose proof (read_rune_cls _ _ _ ER) as RC.
  assert (NN : clz cur =? cNULL = false).
  { apply Z.eqb_neq. intros H. destruct FO as [[[H1 H2] _] _]. rewrite H in H2. vm_compute in H2. discriminate. }
  assert (CC : clean d [cur; stopper]).
  { apply clean_cons. split; [apply FO|]. apply clean_cons. split; [discriminate|exact Logic.I]. }
  destruct inp as [[[r len] c]|].
  - cbv zeta in ES. rewrite RC in FO. pose proof (follows_next _ _ _ _ FO) as FN.
    destruct (finished cur _) eqn:EF.
    + rewrite NN in ES. cbn [negb andb] in ES. destruct (if isisolate cur then _ else _) as [st2|] eqn:E2; [|discriminate]. cbn [obind] in ES.
      match type of ES with (let '(_, _) := ?x in _) = _ => destruct x as [st3 cur'] eqn:E3 end.
      destruct (prepareRuleBD16 st3 r _) as [st4|] eqn:E4; [|discriminate]. cbn [obind] in ES. injection ES as <- <-.
      destruct (scan_loop md props upper None n st4 _ _) as [more| |] eqn:EL; [|discriminate|discriminate]. cbn [rbind] in E. injection E as <-.
      assert (RS : s_rest st4 = s_rest st1).
      { destruct (prepare_fits _ _ _ _ E4) as [-> _]. assert (A : s_rest st2 = s_rest st1) by (destruct (isisolate cur); [apply (switch_fits _ _ _ E2)|injection E2 as <-; reflexivity]).
        rewrite <- A. destruct (_ && _); [injection E3 as <- <-; reflexivity|]. destruct (s_ctx st2); [injection E3 as <- <-; reflexivity|].
        destruct (_ =? _); injection E3 as <- <-; reflexivity. }
      destruct (IH _ _ _ _ (enter d (clz cur)) EL) as (body & -> & FB & CB).
      { rewrite RS. exact FN. }
      exists (cur :: body). split; [reflexivity|]. split; [constructor; [apply FO|exact FB]|]. apply clean_cons. split; [apply FO|exact CB].
    + injection ES as <- <-. destruct (scan_loop md props upper None n st1 _ _) as [more| |] eqn:EL; [|discriminate|discriminate]. cbn [rbind] in E. injection E as <-.
      unfold finished in EF. apply orb_false_iff in EF. destruct EF as [EF E4]. apply orb_false_iff in EF. destruct EF as [EF E3]. apply orb_false_iff in EF. destruct EF as [_ E2].
      apply negb_false_iff, Z.eqb_eq in E2. cbn [clz] in E2.
      destruct (IH _ _ _ _ d EL) as (body & -> & FB & CB); [|exists body; auto].
      cbn [collapse clz]. rewrite <- E2 in FN.
      assert (EE : enter d (clz cur) = d).
      { unfold enter, isisolate in *. apply orb_false_iff in E4. destruct E4 as [E4 ->]. unfold initiator_class. rewrite E4. reflexivity. }
      rewrite EE in FN. exact FN.
  - destruct (if isisolate cur then _ else _) as [st2|]; [|discriminate]. cbn [obind] in ES. injection ES as <- <-. injection E as <-.
    exists [cur]. split; [reflexivity|]. split; [constructor; [apply FO|constructor]|exact CC].
Qed.
(* A paragraph: it begins with something else than a mark. *)
Lemma Scan_clean input ss c cs : map (fun x => eff (fst x)) (para input) = c :: cs -> c <> cNSM -> Forall numberless (c :: cs) -> outside 0 cNULL (c :: cs) = true ->
  Scan md props upper None input = Ok ss ->
  exists body, ss = body ++ [stopper] /\ Forall (fun s => numberless (clz s)) body /\ clean 0 ss.
Proof.
  intros EC NS F O E. unfold Scan in E. replace (3 * length input + 4)%nat with (S (3 * length input + 3)) in E by lia. set (n := (3 * length input + 3)%nat) in *. clearbody n.
  cbn [scan_loop] in E. destruct (scan_step md props upper None _ _ _) as [[out next]|] eqn:ES; [|discriminate]. cbn [lift rbind] in E.
  set (cur := initialOuterScrap md false) in *. assert (N : clz cur = cNULL) by (unfold cur, initialOuterScrap; destruct (m_r2l md); reflexivity).
  unfold scan_step in ES. cbn [nextRune] in ES. destruct (read_rune md props (newScanner input)) as [inp st1] eqn:ER. pose proof (read_rune_cls _ _ _ ER) as RC.
  change (s_rest (newScanner input)) with input in RC. rewrite EC in RC.
  assert (IX : exists r len c0, inp = Some (r, len, c0)).
  { unfold read_rune in ER. change (s_rest (newScanner input)) with input in ER. destruct input as [|[r len] t]; [discriminate|]. destruct (props r) as [c0 b] eqn:EP.
    cbn [ScannerProofs.para] in EC. rewrite EP in EC. cbn [fst] in EC. destruct ((c0 =? cB) && negb (m_ignore md)); [discriminate|]. injection ER as <- <-. eauto. }
  destruct IX as (r & len & c0 & ->). injection RC as EC0 EC1. cbv zeta in ES. rewrite <- EC0 in ES.
  pose proof (Forall_inv F) as NC. cbn [outside] in O. cbv zeta in O. apply andb_prop in O. destruct O as [O1 O2].
  pose proof (alike_W1to3 c cur ltac:(exact (proj1 (proj2 NC)))) as AL. rewrite N in AL. destruct (alike_enter 0 _ _ AL) as [E1 E2].
  assert (FN : follows 0 (applyRulesW1to3 c cur) (cls st1)).
  { rewrite <- EC1. split; [|split; [reflexivity|split; [|exact (Forall_inv_tail F)]]].
    - unfold applyRulesW1to3. apply Z.eqb_neq in NS. rewrite NS. destruct NC as (H1 & H2 & H3). pose proof H2 as H2'. apply Z.eqb_neq in H2'. rewrite H2'. cbn [andb].
      repeat match goal with |- numberless (if ?b then _ else _) => destruct b end; repeat split; try discriminate; try assumption; apply H1.
    - rewrite <- E1, <- (outside_alike _ _ _ _ AL). exact O2. }
  unfold finished in ES. rewrite N in ES. cbn [Z.eqb Pos.eqb cNULL orb negb andb] in ES. cbn [obind] in ES.
  match type of ES with (let '(_, _) := ?x in _) = _ => destruct x as [st3 cur'] eqn:E3 end.
  destruct (prepareRuleBD16 st3 r _) as [st4|] eqn:E4; [|discriminate]. cbn [obind] in ES. injection ES as <- <-.
  destruct (scan_loop md props upper None n st4 _ _) as [more| |] eqn:EL; [|discriminate|discriminate]. cbn [rbind app] in E. injection E as <-.
  refine (scan_clean _ _ _ _ _ 0%nat EL _).
  assert (RS : s_rest st4 = s_rest st1).
  { destruct (prepare_fits _ _ _ _ E4) as [-> _]. destruct (_ && _); [injection E3 as <- <-; reflexivity|]. destruct (s_ctx st1); [injection E3 as <- <-; reflexivity|].
    destruct (_ =? _); injection E3 as <- <-; reflexivity. }
  rewrite RS. exact FN.
Qed.
End Text.

(* ---- no races ---- *)
Lemma still_rest {A} (p : sproc A) : forall l a b, at_rest a = at_rest b -> still p l a -> still p l b.
Proof.
  induction p as [x|p IH|k IH|s k IH|s p IH|x p IH]; intros l a b E X; cbn [still] in X |- *; eauto.
  - destruct l as [|m l]; eapply IH; eauto.
  - destruct l as [|m l]; [|contradiction]. rewrite <- (find_rest a b s E). eapply IH; eauto.
  - destruct l as [|m l]; [|contradiction]. eapply IH; [|exact X]. apply change_rest, E.
  - destruct l as [|m l]; [|contradiction]. eapply IH; eauto.
Qed.
Section NoRace.
Context (md : mode) (props : Z -> Z * Z) (upper : Z -> bool) (markup : option (Z -> Z)) {A : Type}.
Notation config := (ssender * sproc A)%type.
Definition waits (c : config) : Prop := exists l fin, drains md props upper markup (fst c) l fin /\ still (snd c) l fin.
Lemma step_waits c d : sstep md props upper markup c d -> waits c -> waits d.
Proof.
  intros H (l & fin & D & X). destruct c as [s p], H as [(s' & E & ->)|E]; cbn [fst snd] in *.
  - exists l, fin. split; [eapply drains_step; eauto|exact X].
  - destruct p as [a|p|k|x k|x p|x p]; cbn [parser_step] in E; cbn [still] in X.
    + destruct s as [? ? ?|? [|? ?] ?|?|?]; discriminate.
    + assert (d = (s, p)) as -> by (destruct s as [? ? ?|? [|? ?] ?|?|?]; injection E as <-; reflexivity). exists l, fin. auto.
    + destruct s as [? ? ?|st0 [|m q] k0|?|st0]; try discriminate; injection E as <-.
      * destruct (drains_recv _ _ _ _ _ _ _ _ _ _ D) as (l' & -> & D'). exists l', fin. auto.
      * pose proof (drained _ _ _ _ _ _ _ D) as [-> _]. exists [], fin. auto.
    + assert (d = (s, k (fst (findBracket (memory s) x)))) as -> by (destruct s as [? ? ?|? [|? ?] ?|?|?]; injection E as <-; reflexivity).
      destruct l as [|m l]; [|contradiction]. destruct (drained_memory _ _ _ _ _ _ D) as [-> _]. exists [], fin. auto.
    + assert (d = (with_memory s (changeBracket (memory s) x), p)) as -> by (destruct s as [? ? ?|? [|? ?] ?|?|?]; injection E as <-; reflexivity).
      destruct l as [|m l]; [|contradiction]. destruct (drained_memory _ _ _ _ _ _ D) as [-> W]. eexists [], _. split; [apply W|exact X].
    + assert (d = (s, p)) as -> by (destruct s as [? ? ?|? [|? ?] ?|?|?]; injection E as <-; reflexivity). destruct l as [|m l]; [|contradiction]. exists [], fin. auto.
Qed.
Lemma reach_waits c d : sreach md props upper markup c d -> waits c -> waits d.
Proof. induction 1 as [|a b c ST _ IH]; auto. intros W. apply IH. eapply step_waits; eauto. Qed.
Lemma waits_calm c : waits c -> ~ racing md props upper markup c.
Proof.
  intros (l & fin & D & X) [(s' & E & T) R]. apply T.
  assert (l = []) as -> by (destruct (snd c); cbn [parser_reads still] in *; try contradiction; destruct l; auto; contradiction).
  pose proof (drains_step _ _ _ _ _ _ _ _ E D) as D'. destruct (drained_memory _ _ _ _ _ _ D) as [-> _]. destruct (drained_memory _ _ _ _ _ _ D') as [-> _]. reflexivity.
Qed.
End NoRace.
