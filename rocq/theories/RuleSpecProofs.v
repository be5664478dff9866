(* RuleSpecProofs.v -- the rules of the code against RuleSpec.v: their left-hand sides, and what their
   application does to the stack. *)
From Coq Require Import List ZArith Lia Bool.
From Verif Require Import Base Scrap Brackets Trie Rules RuleProofs Reorder ReorderSpec ReorderProofs SplitProofs Scanner ScannerProofs Resolver ResolverProofs RuleSpec.
Import ListNotations.
Open Scope Z_scope.

(* The section a rule is named after. *)
Definition section_of (r : rule) : section :=
  match r with
  | W4_1 | W4_2 | W4_3 => sW4
  | W5_1 | W5_2 => sW5
  | W6_1 | W6_2 | W6_3 => sW6
  | W7 => sW7
  | N2 => sN2
  | W6x | LL | RR => sJoin
  | _ => sN1
  end.

Definition osec_eqb (a b : option section) : bool :=
  match a, b with
  | None, None => true
  | Some sW4, Some sW4 | Some sW5, Some sW5 | Some sW6, Some sW6 | Some sW7, Some sW7 | Some sN1, Some sN1
  | Some sN2, Some sN2 | Some sJoin, Some sJoin => true
  | _, _ => false
  end.
Lemma osec_eqb_eq a b : osec_eqb a b = true -> a = b.
Proof. destruct a as [[]|], b as [[]|]; cbn; intros H; congruence. Qed.

Definition sheet_ok (w : list Z) : bool := osec_eqb (option_map section_of (rule_for all_rules w)) (governs w).
Lemma sheet1 : forallb (fun a => sheet_ok [a]) classes = true.
Proof. vm_compute. reflexivity. Qed.
Lemma sheet2 : forallb (fun a => forallb (fun b => sheet_ok [a; b]) classes) classes = true.
Proof. vm_compute. reflexivity. Qed.
Lemma sheet3 : forallb (fun a => forallb (fun b => forallb (fun c => sheet_ok [a; b; c]) classes) classes) classes = true.
Proof. vm_compute. reflexivity. Qed.

(* The rules with a given left-hand side are those of the section which governs it. *)
Theorem sheet w : Forall is_class w -> option_map section_of (rule_for all_rules w) = governs w.
Proof.
  intros F. destruct F as [|a w A F]; [reflexivity|]. destruct F as [|b w B F].
  { apply osec_eqb_eq. pose proof sheet1 as H. rewrite forallb_forall in H. apply H, class_in, A. }
  destruct F as [|c w C F].
  { apply osec_eqb_eq. pose proof sheet2 as H. rewrite forallb_forall in H. specialize (H a (class_in a A)). rewrite forallb_forall in H. apply H, class_in, B. }
  destruct w as [|d w].
  { apply osec_eqb_eq. pose proof sheet3 as H. rewrite forallb_forall in H. specialize (H a (class_in a A)).
    rewrite forallb_forall in H. specialize (H b (class_in b B)). rewrite forallb_forall in H. apply H, class_in, C. }
  cbn [governs]. unfold rule_for. destruct (find _ all_rules) as [r|] eqn:E; [|reflexivity].
  apply find_some in E. destruct E as [_ E]. apply leqb_eq in E. destruct r; discriminate E.
Qed.

(* The rule that is found when looking up a sequence belongs to the section that governs it, for all
   sequences but four. *)
Definition lost (w : list Z) : Prop := In w [[cAN; cNI; cR]; [cAN; cNI; cAN]; [cEN; cNI; cR]; [cEN; cNI; cAN]].
Theorem found_section w : Forall is_class w -> ~ lost w ->
  exists r, lookup the_trie the_tab w = Ok r /\ option_map section_of r = governs w /\ (forall x, r = Some x -> lhs x = w).
Proof.
  intros F N. exists (rule_for stored w). split; [apply lookup_spec; auto|]. split.
  - rewrite <- sheet by auto. f_equal. unfold rule_for.
    destruct (find (fun r => leqb (lhs r) w) stored) as [r|] eqn:E.
    + apply find_some in E. destruct E as [I E]. apply leqb_eq in E. subst w. destruct r; try reflexivity; cbn in I; decompose [or] I; discriminate.
    + destruct (find (fun r => leqb (lhs r) w) all_rules) as [r|] eqn:E'; [|reflexivity]. exfalso.
      apply find_some in E'. destruct E' as [_ E']. pose proof (find_none _ _ E r) as X. cbn beta in X. rewrite E' in X. apply leqb_eq in E'. subst w.
      assert (D : In r stored \/ r = N1_5 \/ r = N1_6 \/ r = N1_8 \/ r = N1_9) by (destruct r; cbn; auto 25).
      destruct D as [D|D]; [discriminate (X D)|]. apply N. unfold lost. destruct D as [-> | [-> | [-> | ->]]]; cbn; auto 6.
  - intros x X. unfold rule_for in X. apply find_some in X. destruct X as [_ X]. apply leqb_eq in X. exact X.
Qed.
Theorem lost_section w : lost w -> governs w = Some sN1 /\ lookup the_trie the_tab w = Ok None.
Proof. intros [<-|[<-|[<-|[<-|[]]]]]; split; vm_compute; reflexivity. Qed.

(* ---- application ---- *)
Section Apply.
Context {store : Type}.
Notation pst := (pst store).

Lemma reduce_at (p : pst) pre w n rhs start :
  p_stack p = pre ++ w -> p_sp p = length pre -> (length rhs <= length w)%nat -> (n <= length w)%nat -> (start <= length pre)%nat ->
  reduce p n rhs start = Some (with_stack p (pre ++ rhs ++ skipn n (rhs ++ skipn (length rhs) w))).
Proof.
  intros E S L NL ST. unfold reduce, overwrite. rewrite E, S.
  assert (LL : length (pre ++ w) = (length pre + length w)%nat) by apply app_length.
  destruct (Nat.leb_spec (length pre + length rhs) (length (pre ++ w))); [|lia]. cbn [obind].
  set (st := firstn _ _ ++ _).
  assert (EST : st = pre ++ rhs ++ skipn (length rhs) w).
  { unfold st. rewrite firstn_app, firstn_all, Nat.sub_diag. cbn [firstn]. rewrite app_nil_r. f_equal. f_equal.
    rewrite skipn_app. rewrite skipn_all2 by lia. cbn [app]. f_equal. lia. }
  rewrite Nat.max_r by lia.
  assert (LS : length st = length (pre ++ w)) by (rewrite EST, !app_length, skipn_length; lia).
  assert (B1 : (length pre + length rhs <=? length st)%nat = true) by (apply Nat.leb_le; lia).
  set (from := Z.of_nat (length pre + length rhs) - (Z.of_nat (length rhs) - Z.of_nat n)).
  assert (FR : from = Z.of_nat (length pre + n)) by (unfold from; lia).
  assert (B2 : (0 <=? from) = true) by (apply Z.leb_le; lia).
  assert (B3 : (from <=? zlen st) = true) by (apply Z.leb_le; unfold zlen; lia).
  rewrite B1, B2, B3. cbn [andb]. f_equal. f_equal. rewrite FR, Nat2Z.id, EST.
  rewrite firstn_app. rewrite firstn_all2 by lia. replace (length pre + length rhs - length pre)%nat with (length rhs) by lia.
  rewrite firstn_app, firstn_all, Nat.sub_diag. cbn [firstn]. rewrite app_nil_r, <- app_assoc. f_equal. f_equal.
  rewrite skipn_app. rewrite skipn_all2 by lia. replace (length pre + n - length pre)%nat with n by lia. reflexivity.
Qed.

Lemma apply_at (p : pst) r pre w rhs jmp nl start lo :
  p_stack p = pre ++ w -> p_sp p = length pre -> action r w = Some (rhs, jmp, nl) ->
  (length rhs <= length w)%nat -> (lhsLen r <= length w)%nat -> (start <= length pre)%nat ->
  apply_rule p r start lo =
    Ok (with_sp (with_stack p (pre ++ rhs ++ skipn (lhsLen r) (rhs ++ skipn (length rhs) w))) (jump lo (length pre) jmp)).
Proof.
  intros E SP A L1 L2 ST. unfold apply_rule, tail_at. rewrite E, SP, app_length.
  destruct (Nat.leb_spec (length pre) (length pre + length w)); [|lia].
  rewrite skipn_app, skipn_all, Nat.sub_diag. cbn [skipn app lift rbind]. rewrite A. cbn [lift rbind].
  rewrite (reduce_at p pre w) by auto. cbn [lift rbind]. unfold with_stack at 2. cbn [p_sp]. rewrite SP. reflexivity.
Qed.

(* ---- rules that do what UAX#9 says ---- *)
Definition faithful (r : rule) (m : list scrap) : Prop :=
  In r [W4_1; W4_2; W4_3; W5_1; W5_2; W6_1; W6_2; W6_3; W6x; N1_1; N1_2; N2; LL; RR] \/
  r = W7 /\ dcContext (sctx (hd scrap0 m)) = cL.

Lemma attributed_merge c m lo hi : tiles lo m hi -> m <> [] -> attributed clz [merge c m] = attributed_as (repeat c (length m)) m.
Proof.
  intros T N.
  assert (X : attributed clz [merge c m] = map (fun p => (p, c)) (zrange lo hi)).
  { cbn [attributed flat_map merge clz sl sr]. rewrite app_nil_r. f_equal. f_equal.
    - destruct m; [congruence|]. cbn in *. tauto.
    - destruct (exists_last N) as (m' & y & ->). rewrite last_last. apply tiles_app in T. destruct T as (i & _ & T). cbn in T. tauto. }
  rewrite X. clear X N. revert lo T. induction m as [|s m IH]; intros lo T.
  - cbn in T. subst hi. rewrite zrange_nil by lia. reflexivity.
  - destruct T as (A & B & T). pose proof (tiles_le _ _ _ T). cbn [length repeat]. unfold attributed_as. cbn [combine flat_map fst snd].
    fold (attributed_as (repeat c (length m)) m). rewrite <- (IH _ T), (zrange_app lo (sr s) hi) by lia. rewrite map_app, A. reflexivity.
Qed.

Theorem rule_faithful (p : pst) r pre m rest lo hi start low :
  faithful r m -> p_stack p = pre ++ m ++ rest -> p_sp p = length pre -> map clz m = lhs r -> tiles lo m hi -> (start <= length pre)%nat ->
  exists p' x, apply_rule p r start low = Ok p' /\ p_stack p' = pre ++ x :: rest /\
    attributed clz [x] = attributed_as (rewritten (section_of r) (se (hd scrap0 m)) (dcContext (sctx (hd scrap0 m))) (lhs r)) m /\
    sctx x = sctx (hd scrap0 m) /\ kids x = flat_map kids m /\
    p_eof p' = p_eof p /\ p_pipe p' = p_pipe p /\ p_depth p' = p_depth p /\ p_store p' = p_store p.
Proof.
  intros FA E SP M T ST.
  assert (LM : length m = lhsLen r) by (unfold lhsLen; rewrite <- M, map_length; reflexivity).
  assert (NM : m <> []) by (destruct m; [destruct r; discriminate M|discriminate]).
  assert (X : exists c jmp nl, action r (m ++ rest) = Some ([merge c m], jmp, nl) /\
    rewritten (section_of r) (se (hd scrap0 m)) (dcContext (sctx (hd scrap0 m))) (lhs r) = repeat c (length m)).
  { destruct FA as [I|[-> C]].
    - cbn [In] in I. rewrite LM.
      repeat (destruct I as [<-|I]; [clear LM; cbn [lhs] in M; inv_map; eexists _, _, _; split; [reflexivity || (cbn [action nth_error app obind]; rewrite merge_one; reflexivity)|reflexivity]|]).
      contradiction I.
    - clear LM. cbn [lhs] in M. inv_map. cbn [hd] in C |- *. exists cL. unfold action. cbn [nth_error app obind]. rewrite C. cbn [cL Z.eqb].
      eexists _, _. split; [rewrite merge_one; reflexivity|reflexivity]. }
  destruct X as (c & jmp & nl & A & RW).
  assert (LP : (1 <= length m)%nat) by (destruct m; [congruence|cbn; lia]).
  eexists _, (merge c m). split; [eapply (apply_at p r pre (m ++ rest)); eauto; rewrite app_length; cbn; lia|].
  cbn [with_sp with_stack p_stack p_eof p_pipe p_depth p_store]. split; [|split].
  - f_equal. cbn [length app]. f_equal. rewrite <- LM. destruct m as [|s m]; [congruence|]. cbn [length app].
    change (skipn (S (length m)) (merge c (s :: m) :: skipn 1 (s :: m ++ rest))) with (skipn (length m) (m ++ rest)).
    rewrite skipn_app, skipn_all, Nat.sub_diag. reflexivity.
  - rewrite RW. apply (attributed_merge c m lo hi); auto.
  - auto 8.
Qed.

(* ---- rules that do not ---- *)

(* Rule W7 outside a left-to-right context, N1-6, N1-7, N1-9 and N1-10: the scraps which follow occur twice. *)
Theorem rule_doubles (p : pst) r pre m rest start low :
  In r [N1_6; N1_7; N1_9; N1_10] \/ r = W7 /\ dcContext (sctx (hd scrap0 m)) <> cL ->
  p_stack p = pre ++ m ++ rest -> p_sp p = length pre -> map clz m = lhs r -> (start <= length pre)%nat ->
  exists p' m', apply_rule p r start low = Ok p' /\ p_stack p' = pre ++ m' ++ rest ++ rest /\
    map sl m' = map sl m /\ map sr m' = map sr m /\
    map clz m' = rewritten (section_of r) (se (hd scrap0 m)) (dcContext (sctx (hd scrap0 m))) (lhs r).
Proof.
  intros C E SP M ST. destruct C as [I|[-> C]].
  - assert (X : exists a b d, m = [a; b; d] /\ action r (m ++ rest) = Some (a :: with_clz b cR :: d :: rest, 2, false) /\ lhsLen r = 3%nat /\
      map clz [a; with_clz b cR; d] = rewritten (section_of r) (se a) (dcContext (sctx a)) (lhs r)).
    { cbn [In] in I. destruct m as [|a [|b [|d [|? ?]]]]; try (exfalso; decompose [or] I; try contradiction; subst r; cbn in M; discriminate M).
      exists a, b, d. split; [reflexivity|]. rewrite <- M. cbn [map with_clz clz].
      injection (f_equal (fun l => (nth 0 l 0, nth 1 l 0, nth 2 l 0)) M) as M0 M1 M2.
      decompose [or] I; try contradiction; subst r; (split; [reflexivity|]; split; [reflexivity|]); cbn [nth lhs] in M0, M1, M2; cbn [section_of rewritten];
        rewrite M0; reflexivity. }
    destruct X as (a & b & d & -> & A & LL & CL).
    eexists _, [a; with_clz b cR; d]. split; [eapply (apply_at p r pre ([a; b; d] ++ rest)); eauto; rewrite ?LL; cbn; lia|].
    cbn [with_sp with_stack p_stack hd]. rewrite LL. split; [|split; [reflexivity|split; [reflexivity|exact CL]]].
    cbn [length app skipn]. rewrite skipn_all, app_nil_r. reflexivity.
  - cbn [lhs] in M. inv_map. cbn [hd] in *. apply Z.eqb_neq in C.
    eexists _, [s]. split; [eapply (apply_at p W7 pre ([s] ++ rest)); [exact E|exact SP|unfold action; cbn [nth_error app obind]; rewrite C; reflexivity|cbn; lia|cbn; lia|exact ST]|].
    cbn [with_sp with_stack p_stack lhsLen lhs length app map].
    split; [|split; [reflexivity|split; [reflexivity|cbn [section_of rewritten]; rewrite C, H; reflexivity]]].
    cbn [skipn]. rewrite skipn_all. cbn [skipn app]. rewrite ?app_nil_r. reflexivity.
Qed.

(* Rules N1-3, N1-4, N1-5 and N1-8: the third scrap is lost. *)
Theorem rule_loses (p : pst) r pre a b d rest start low :
  In r [N1_3; N1_4; N1_5; N1_8] ->
  p_stack p = pre ++ [a; b; d] ++ rest -> p_sp p = length pre -> map clz [a; b; d] = lhs r -> (start <= length pre)%nat ->
  exists p' b', apply_rule p r start low = Ok p' /\ p_stack p' = pre ++ [a; b'] ++ rest /\ sl b' = sl b /\ sr b' = sr b /\
    clz b' <> nth 1 (rewritten (section_of r) (se a) (dcContext (sctx a)) (lhs r)) cNULL.
Proof.
  intros I E SP M ST. cbn [In] in I. cbn [map] in M.
  repeat (destruct I as [<-|I]; [cbn [lhs] in M; injection M as M1 M2 M3;
    eexists _, _; split; [eapply (apply_at p _ pre ([a; b; d] ++ rest)); [exact E|exact SP|reflexivity|cbn; lia|cbn; lia|exact ST]|];
    cbn [with_sp with_stack p_stack lhsLen lhs length app];
    split; [reflexivity|]; split; [reflexivity|]; split; [reflexivity|]; cbn; try rewrite M2; discriminate|]).
  contradiction I.
Qed.
End Apply.
