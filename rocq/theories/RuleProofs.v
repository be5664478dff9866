(* RuleProofs.v -- what the rule dictionary finds.  The dictionary is a closed term; the search tree
   below its root is explored by computation, words of any length are covered by induction. *)
From Coq Require Import List ZArith Lia Bool.
From Verif Require Import Base Scrap Trie Rules.
Import ListNotations.
Open Scope Z_scope.

(* ---- specification: a dictionary is a list of rules ---- *)

(* The rules that can still be found after all of them have been stored. *)
Definition stored : list rule :=
  [W4_1; W4_2; W4_3; W5_1; W5_2; W6_1; W6_2; W6_3; W6x; W7; N1_1; N1_2; N1_3; N1_4; N1_7; N1_10; N2; LL; RR].

Fixpoint leqb (a b : list Z) : bool :=
  match a, b with
  | [], [] => true
  | x :: a, y :: b => (x =? y) && leqb a b
  | _, _ => false
  end.

Fixpoint prefixb (a b : list Z) : bool :=
  match a, b with
  | [], _ => true
  | x :: a, y :: b => (x =? y) && prefixb a b
  | _ :: _, [] => false
  end.

(* The rule of the list [rs] with left-hand side w. *)
Definition rule_for (rs : list rule) (w : list Z) : option rule := find (fun r => leqb (lhs r) w) rs.

(* The rule of the list [rs], longer than one symbol, whose left-hand side begins cs. *)
Definition long_rule (rs : list rule) (cs : list Z) : option rule :=
  find (fun r => (2 <=? lhsLen r)%nat && prefixb (lhs r) cs) rs.

(* The bidi classes a scrap can have: everything below cMAX. *)
Definition is_class (c : Z) : Prop := 0 <= c < cMAX.
Definition classes : list Z := map Z.of_nat (seq 0 28).

Lemma class_in c : is_class c -> In c classes.
Proof.
  unfold is_class, cMAX, classes. intros H. apply in_map_iff. exists (Z.to_nat c).
  split; [lia|]. apply in_seq. lia.
Qed.

(* ---- generic list facts ---- *)
Lemma leqb_eq a b : leqb a b = true <-> a = b.
Proof.
  revert b. induction a as [|x a IH]; intros [|y b]; simpl; split; intros H; try discriminate; auto.
  - apply andb_true_iff in H. destruct H as [H1 H2]. apply Z.eqb_eq in H1. apply IH in H2. congruence.
  - injection H as -> ->. rewrite Z.eqb_refl. simpl. now apply IH.
Qed.

Lemma prefixb_app a b c : prefixb a (b ++ c) = true -> prefixb a b = true \/ prefixb b a = true.
Proof.
  revert b. induction a as [|x a IH]; intros [|y b]; simpl; intros H; auto.
  apply andb_true_iff in H. destruct H as [H1 H2]. rewrite H1. simpl.
  apply Z.eqb_eq in H1. subst y. rewrite Z.eqb_refl. simpl. auto.
Qed.

Lemma prefixb_ext a b c : prefixb a b = true -> prefixb a (b ++ c) = true.
Proof.
  revert b. induction a as [|x a IH]; intros [|y b]; simpl; intros H; auto; try discriminate.
  apply andb_true_iff in H. destruct H as [H1 H2]. rewrite H1. simpl. auto.
Qed.

Lemma prefixb_refl a : prefixb a a = true.
Proof. induction a; simpl; auto. now rewrite Z.eqb_refl. Qed.

Lemma prefixb_snoc a b c : prefixb a (b ++ [c]) = true -> a = b ++ [c] \/ prefixb a b = true.
Proof.
  revert b. induction a as [|x a IH]; intros [|y b]; simpl; intros H; auto.
  - apply andb_true_iff in H. destruct H as [H1 H2]. apply Z.eqb_eq in H1. subst.
    destruct a; [auto|discriminate].
  - apply andb_true_iff in H. destruct H as [H1 H2]. apply Z.eqb_eq in H1. subst.
    destruct (IH b H2) as [-> | E]; auto. right. rewrite Z.eqb_refl. simpl. auto.
Qed.

Lemma find_ext' {A} (f g : A -> bool) l : (forall x, In x l -> f x = g x) -> find f l = find g l.
Proof.
  induction l as [|x l IH]; simpl; intros H; auto. rewrite (H x) by auto.
  destruct (g x); auto.
Qed.

(* ---- the dictionary ---- *)
Definition the_trie : trie :=
  Eval vm_compute in match prepareRulesTrie with Ok (t, _) => t | _ => mkt false 0 0 0 0 0 [] [] [] end.
Definition the_tab : list (option rule) :=
  Eval vm_compute in match prepareRulesTrie with Ok (_, tab) => tab | _ => [] end.

Lemma prepared : prepareRulesTrie = Ok (the_trie, the_tab).
Proof. vm_compute. reflexivity. Qed.

Definition orule_eqb (a b : option rule) : bool :=
  match a, b with
  | None, None => true
  | Some x, Some y => leqb (lhs x) (lhs y)
  | _, _ => false
  end.

Lemma orule_eqb_eq a b : orule_eqb a b = true -> a = b.
Proof.
  destruct a as [x|], b as [y|]; simpl; auto; try discriminate.
  intros H. f_equal. destruct x, y; vm_compute in H; congruence.
Qed.

(* No rule of [stored] has a left-hand side beginning with w. *)
Definition dead (w : list Z) : bool := forallb (fun r => negb (prefixb w (lhs r))) stored.

(* Explore the tree below the iterator [ti], reached with the word [pre]. *)
Fixpoint explore (d : nat) (ti : titer) (pre : list Z) : bool :=
  match d with
  | O => false
  | S d =>
      forallb (fun c =>
        match Next the_trie ti c with
        | Ok (p, ti') =>
            if p =? 0 then negb (ti_live ti') && dead (pre ++ [c])
            else match zget the_tab p with
                 | Some r => orule_eqb r (rule_for stored (pre ++ [c]))
                 | None => false
                 end && explore d ti' (pre ++ [c])
        | _ => false
        end) classes
  end.

Lemma explored : explore 4 Iterator0 [] = true.
Proof. vm_compute. reflexivity. Qed.

Lemma explore_step d ti pre c : explore (S d) ti pre = true -> is_class c ->
  exists p ti', Next the_trie ti c = Ok (p, ti') /\
    (p = 0 /\ ti_live ti' = false /\ dead (pre ++ [c]) = true \/
     p <> 0 /\ zget the_tab p = Some (rule_for stored (pre ++ [c])) /\ explore d ti' (pre ++ [c]) = true).
Proof.
  intros E C. cbn [explore] in E. rewrite forallb_forall in E. specialize (E c (class_in c C)).
  destruct (Next the_trie ti c) as [[p ti']| |]; try discriminate.
  exists p, ti'. split; auto. destruct (Z.eqb_spec p 0) as [P|P].
  - apply andb_true_iff in E. destruct E as [E1 E2]. left. apply negb_true_iff in E1. auto.
  - apply andb_true_iff in E. destruct E as [E1 E2]. right. split; auto.
    destruct (zget the_tab p) as [r|]; [|discriminate]. apply orule_eqb_eq in E1. subst. auto.
Qed.

Lemma walk_dead ti p cs : ti_live ti = false -> cs <> [] -> walk the_trie ti p cs = Ok 0.
Proof.
  revert ti p. induction cs as [|c cs IH]; intros ti p L N; [congruence|].
  cbn [walk]. unfold Next. rewrite L. cbn [negb rbind].
  destruct cs; [reflexivity|]. apply IH; auto; discriminate.
Qed.

Lemma walk_dead0 ti cs : ti_live ti = false -> walk the_trie ti 0 cs = Ok 0.
Proof. intros L. destruct cs; [reflexivity|]. apply walk_dead; auto; discriminate. Qed.

Lemma dead_rule_for w w' : dead w = true -> rule_for stored (w ++ w') = None.
Proof.
  unfold dead, rule_for. intros D. rewrite forallb_forall in D.
  destruct (find _ stored) as [r|] eqn:E; auto. apply find_some in E. destruct E as [E1 E2].
  apply leqb_eq in E2. specialize (D r E1). rewrite E2 in D.
  rewrite (prefixb_ext w w w' (prefixb_refl w)) in D. discriminate.
Qed.

Lemma walk_explored d : forall ti pre p cs, explore d ti pre = true -> Forall is_class cs -> cs <> [] ->
  exists q, walk the_trie ti p cs = Ok q /\
    (q = 0 /\ rule_for stored (pre ++ cs) = None \/
     q <> 0 /\ zget the_tab q = Some (rule_for stored (pre ++ cs))).
Proof.
  induction d as [|d IH]; intros ti pre p cs E F N; [discriminate|].
  destruct cs as [|c cs]; [congruence|]. inversion F as [|? ? C F']; subst.
  destruct (explore_step _ _ _ _ E C) as (q & ti' & NX & [(Q & L & D)|(Q & T & E')]).
  - cbn [walk]. rewrite NX. cbn [rbind]. exists 0. subst q. rewrite walk_dead0 by auto.
    split; auto. left. split; auto.
    replace (pre ++ c :: cs) with ((pre ++ [c]) ++ cs) by (rewrite <- app_assoc; reflexivity).
    apply dead_rule_for. auto.
  - cbn [walk]. rewrite NX. cbn [rbind]. destruct cs as [|c' cs].
    + exists q. split; [reflexivity|]. right. auto.
    + destruct (IH ti' (pre ++ [c]) q (c' :: cs) E' F') as (r & W & X); [discriminate|].
      exists r. split; auto. rewrite <- app_assoc in X. exact X.
Qed.

Lemma lookup_spec w : Forall is_class w -> lookup the_trie the_tab w = Ok (rule_for stored w).
Proof.
  intros F. destruct w as [|c w].
  - vm_compute. reflexivity.
  - destruct (walk_explored 4 Iterator0 [] 0 (c :: w) explored F) as (q & W & X); [discriminate|].
    unfold lookup. rewrite W. cbn [rbind app] in *. destruct X as [(-> & X)|(Q & X)].
    + rewrite X. reflexivity.
    + rewrite X. cbn [lift rbind]. destruct (Z.eqb_spec q 0); congruence.
Qed.

(* ---- matching the beginning of a sequence ---- *)

(* As [explore], but following the entry pointer of matchRulesLHS. *)
Fixpoint explore2 (d : nat) (ti : titer) (pre : list Z) (entry : Z) : bool :=
  match zget the_tab entry with
  | Some r => orule_eqb (if entry =? 0 then None else r) (long_rule stored pre)
  | None => false
  end &&
  match d with
  | O => false
  | S d =>
      forallb (fun c =>
        match Next the_trie ti c with
        | Ok (p, ti') =>
            if p =? 0 then dead (pre ++ [c]) else explore2 d ti' (pre ++ [c]) p
        | _ => false
        end) classes
  end.

(* The same for the first step, which sets the short pointer. *)
Definition explore1 : bool :=
  forallb (fun c =>
    match Next the_trie Iterator0 c with
    | Ok (p, ti') => negb (p =? 0) &&
        match zget the_tab p with Some r => orule_eqb r (rule_for stored [c]) | None => false end &&
        explore2 4 ti' [c] 0
    | _ => false
    end) classes.

Lemma explored1 : explore1 = true.
Proof. vm_compute. reflexivity. Qed.

Lemma dead_long_rule pre c w : dead (pre ++ [c]) = true -> long_rule stored (pre ++ c :: w) = long_rule stored pre.
Proof.
  intros D. unfold long_rule. apply find_ext'. intros r I. f_equal.
  unfold dead in D. rewrite forallb_forall in D. specialize (D r I). apply negb_true_iff in D.
  destruct (prefixb (lhs r) pre) eqn:P.
  - apply prefixb_ext. auto.
  - destruct (prefixb (lhs r) (pre ++ c :: w)) eqn:Q; auto.
    replace (pre ++ c :: w) with ((pre ++ [c]) ++ w) in Q by (rewrite <- app_assoc; reflexivity).
    apply prefixb_app in Q. destruct Q as [Q|Q]; [|congruence].
    apply prefixb_snoc in Q. destruct Q as [Q|Q]; [|congruence].
    rewrite Q, prefixb_refl in D. discriminate.
Qed.

Lemma lhs_loop_explored d : forall ti pre entry short cs k minlen,
  explore2 d ti pre entry = true -> Forall is_class cs -> 1 <= k -> minlen <= 2 ->
  exists e, lhs_loop the_trie ti cs k minlen entry short = Ok (e, short) /\
    exists r, zget the_tab e = Some r /\ (if e =? 0 then None else r) = long_rule stored (pre ++ cs).
Proof.
  assert (STOP : forall d' ti pre entry, explore2 d' ti pre entry = true ->
    exists r, zget the_tab entry = Some r /\ (if entry =? 0 then None else r) = long_rule stored pre).
  { intros d' ti pre entry E. destruct d'; cbn [explore2] in E; apply andb_true_iff in E; destruct E as [E _];
      destruct (zget the_tab entry) as [r|]; try discriminate; exists r; split; auto;
      apply orule_eqb_eq in E; auto. }
  induction d as [|d IH]; intros ti pre entry short cs k minlen E F K M.
  - cbn [explore2] in E. rewrite andb_false_r in E. discriminate.
  - destruct cs as [|c cs].
    + cbn [lhs_loop]. exists entry. split; auto. rewrite app_nil_r. apply (STOP (S d) ti). auto.
    + inversion F as [|? ? C F']; subst. pose proof (STOP _ _ _ _ E) as ST.
      cbn [explore2] in E. apply andb_true_iff in E. destruct E as [_ E].
      rewrite forallb_forall in E. specialize (E c (class_in c C)).
      cbn [lhs_loop]. destruct (Next the_trie ti c) as [[p ti']| |]; try discriminate.
      cbn [rbind]. destruct (Z.eqb_spec p 0) as [P|P].
      * exists entry. split; auto. rewrite dead_long_rule by auto. exact ST.
      * replace (k =? 0) with false by (symmetry; apply Z.eqb_neq; lia).
        replace (minlen <=? k + 1) with true by (symmetry; apply Z.leb_le; lia).
        destruct (IH ti' (pre ++ [c]) p short cs (k + 1) minlen E F') as (e & L & R); try lia.
        exists e. split; auto. rewrite <- app_assoc in R. exact R.
Qed.

Lemma match_spec cs minlen : Forall is_class cs -> minlen <= 2 ->
  matchRulesLHS the_trie the_tab cs minlen = Ok (long_rule stored cs, rule_for stored (firstn 1 cs)).
Proof.
  intros F M. destruct cs as [|c cs].
  - vm_compute. reflexivity.
  - inversion F as [|? ? C F']; subst. pose proof explored1 as E. unfold explore1 in E.
    rewrite forallb_forall in E. specialize (E c (class_in c C)).
    unfold matchRulesLHS. cbn [lhs_loop].
    destruct (Next the_trie Iterator0 c) as [[p ti']| |]; try discriminate. cbn [rbind].
    apply andb_true_iff in E. destruct E as [E E2]. apply andb_true_iff in E. destruct E as [E0 E1].
    apply negb_true_iff in E0. rewrite E0.
    destruct (lhs_loop_explored 4 ti' [c] 0 p cs 1 minlen E2 F') as (e & L & r & R1 & R2); try lia.
    replace (0 =? 0) with true by reflexivity. change (0 + 1) with 1.
    rewrite L. cbn [rbind]. rewrite R1. cbn [lift rbind].
    destruct (zget the_tab p) as [s|]; [|discriminate]. cbn [lift rbind].
    apply orule_eqb_eq in E1. rewrite E0. rewrite R2. subst s. reflexivity.
Qed.
