(* BracketProofs.v -- the bracket handler records the pairs of BD16. *)
From Coq Require Import List ZArith Lia Bool Permutation.
From Verif Require Import Base Scrap Brackets Bd16Spec.
Import ListNotations.
Open Scope Z_scope.

(* ---- lemmas on the table ---- *)
Lemma find_opening_find r tbl : find_opening r tbl = find (fun p => fst p =? r) tbl.
Proof. induction tbl as [|p t IH]; simpl; auto. destruct (fst p =? r); auto. Qed.

Lemma is_opening_find tbl r :
  is_opening tbl r = match find (fun p => fst p =? r) tbl with Some _ => true | None => false end.
Proof.
  unfold is_opening. induction tbl as [|p t IH]; simpl; auto. destruct (fst p =? r); simpl; auto.
Qed.

(* ---- popWith from the end of the list is a search from the front of the reverse ---- *)
Fixpoint rpop (c : Z) (stk : list brktpos) : option (brktpos * list brktpos) :=
  match stk with
  | [] => None
  | x :: t => if snd (bp_pair x) =? c then Some (x, t) else rpop c t
  end.

Lemma pop_loop_rpop bs b n : (n <= length bs)%nat ->
  pop_loop bs b n =
    match rpop b (rev (firstn n bs)) with Some (x, t) => Some (x, rev t) | None => None end.
Proof.
  induction n as [|i IH]; intros H; [reflexivity|].
  cbn [pop_loop].
  destruct (nth_error bs i) as [x|] eqn:E.
  - assert (F : firstn (S i) bs = firstn i bs ++ [x]).
    { clear -E. revert i E. induction bs as [|y t IH]; intros [|i] E; simpl in E; try discriminate.
      - injection E as ->. reflexivity.
      - change (firstn (S (S i)) (y :: t)) with (y :: firstn (S i) t).
        rewrite (IH i E). reflexivity. }
    rewrite F, rev_app_distr. cbn [rev app rpop].
    destruct (snd (bp_pair x) =? b).
    + rewrite rev_involutive. reflexivity.
    + apply IH. lia.
  - apply nth_error_None in E. lia.
Qed.

Lemma pop_with_rpop bs b :
  pop_with bs b = match rpop b (rev bs) with Some (x, t) => Some (x, rev t) | None => None end.
Proof. unfold pop_with. rewrite pop_loop_rpop by lia. now rewrite firstn_all. Qed.

(* ---- refinement ---- *)
Definition view (e : Z * scrap) : Z * Z := (fst e, sl (snd e)).
Definition pview (p : pairing) : Z * Z := (sl (pg_open p), sl (pg_close p)).

(* A character with the bracket class its table entry demands. *)
Definition bracket_char (e : Z * scrap) : Prop :=
  (clz (snd e) = cBRACKO /\ opening uax9BracketPairs (fst e)) \/
  (clz (snd e) = cBRACKC /\ closing uax9BracketPairs (fst e)) \/
  (isbracket (snd e) = false /\ ~ opening uax9BracketPairs (fst e) /\ ~ closing uax9BracketPairs (fst e)).

Definition is_op := is_opening uax9BracketPairs.
Definition is_cl := is_closing uax9BracketPairs.

Lemma is_op_spec r : is_op r = true <-> opening uax9BracketPairs r.
Proof.
  unfold is_op, is_opening, opening. rewrite existsb_exists, in_map_iff.
  split; intros (p & A & B); exists p.
  - apply Z.eqb_eq in B. auto.
  - split; auto. apply Z.eqb_eq; auto.
Qed.

Lemma is_cl_spec r : is_cl r = true <-> closing uax9BracketPairs r.
Proof.
  unfold is_cl, is_closing, closing. rewrite existsb_exists, in_map_iff.
  split; intros (p & A & B); exists p.
  - apply Z.eqb_eq in B. auto.
  - split; auto. apply Z.eqb_eq; auto.
Qed.

(* No character is both an opening and a closing bracket (of the table). *)
Lemma table_apart r : opening uax9BracketPairs r -> closing uax9BracketPairs r -> False.
Proof.
  assert (C : forallb (fun a => forallb (fun b => negb (a =? b)) (map snd uax9BracketPairs))
                (map fst uax9BracketPairs) = true) by (vm_compute; reflexivity).
  intros O Cl. unfold opening in O. unfold closing in Cl.
  rewrite forallb_forall in C. specialize (C r O). rewrite forallb_forall in C.
  specialize (C r Cl). rewrite Z.eqb_refl in C. discriminate.
Qed.

Section Refinement.
Context (canon : Z -> Z).

(* Characters are matched by identity exactly if they are matched up to canonical equivalence. *)
Definition no_mix (os cs : list Z) : Prop :=
  forall o c, In o os -> In c cs -> opening uax9BracketPairs o -> closing uax9BracketPairs c ->
  canon (paired uax9BracketPairs o) = canon c -> paired uax9BracketPairs o = c.

(* An element of the Go stack and the element of the stack of BD16 it stands for; the opening
   brackets on the stack are among [os]. *)
Definition elt_ok (os : list Z) (b : brktpos) : Prop :=
  In (fst (bp_pair b)) os /\ opening uax9BracketPairs (fst (bp_pair b)) /\
  snd (bp_pair b) = paired uax9BracketPairs (fst (bp_pair b)).

Definition bview (b : brktpos) : Z * Z := (canon (snd (bp_pair b)), sl (bp_open b)).

Lemma rpop_bd_pop os cs c stk :
  no_mix os cs -> In c cs -> closing uax9BracketPairs c -> Forall (elt_ok os) stk ->
  match rpop c stk with
  | Some (x, t) => bd_pop (canon c) (map bview stk) = Some (sl (bp_open x), map bview t) /\
                   Forall (elt_ok os) t /\ (length t < length stk)%nat
  | None => bd_pop (canon c) (map bview stk) = None
  end.
Proof.
  intros NM IC CC. induction stk as [|x t IH]; intros F; simpl; auto.
  inversion F as [|? ? (I1 & O1 & P1) F']; subst.
  destruct (Z.eqb_spec (snd (bp_pair x)) c) as [E|E].
  - rewrite <- E, Z.eqb_refl. split; [|split]; auto.
  - destruct (Z.eqb_spec (canon (snd (bp_pair x))) (canon c)) as [E2|E2].
    + exfalso. apply E. rewrite P1 in E2 |- *. eapply NM; eauto.
    + specialize (IH F'). destruct (rpop c t) as [[y u]|]; auto.
      destruct IH as (A & B & D). split; [|split]; auto with arith.
Qed.

Lemma insert_perm (h : list pairing) n (x : pairing) :
  Permutation (firstn n h ++ x :: skipn n h) (x :: h).
Proof.
  rewrite <- (firstn_skipn n h) at 3. symmetry. apply Permutation_middle.
Qed.

Lemma bd16_run_cons h e es : bd16_run h (e :: es) = bd16_run (bd16_step h e) es.
Proof. reflexivity. Qed.

(* The pairs are never lost again. *)
Lemma run_keeps es : forall h, exists extra,
  Permutation (map pview (pairs (bd16_run h es))) (map pview (pairs h) ++ extra).
Proof.
  induction es as [|[r s] es IH]; intros h.
  - exists []. rewrite app_nil_r. reflexivity.
  - rewrite bd16_run_cons.
    assert (S1 : exists x, Permutation (map pview (pairs (bd16_step h (r, s)))) (map pview (pairs h) ++ x)).
    { unfold bd16_step. destruct (negb (isbracket s)); [exists []; rewrite app_nil_r; reflexivity|].
      destruct (clz s =? cBRACKO).
      - unfold push_opening. destruct (bs_push _ _ _). exists []. rewrite app_nil_r. reflexivity.
      - unfold find_pair. destruct (pop_with _ _) as [[b bs]|].
        + simpl. exists [pview (mkpg b s)]. rewrite (Permutation_map pview (insert_perm _ _ _)).
          simpl. apply Permutation_cons_append.
        + exists []. rewrite app_nil_r. reflexivity. }
    destruct S1 as [x X]. destruct (IH (bd16_step h (r, s))) as [y Y].
    exists (x ++ y). rewrite Y, X, app_assoc. reflexivity.
Qed.

Lemma run_refines os cs : no_mix os cs -> forall es h,
  Forall bracket_char es ->
  Forall (fun e => In (fst e) os /\ In (fst e) cs) es ->
  Forall (elt_ok os) (bstack h) ->
  exists extra,
    Permutation (map pview (pairs (bd16_run h es)))
      (map pview (pairs h) ++ bd16 uax9BracketPairs canon (map bview (rev (bstack h))) (map view es) ++ extra) /\
    (bd_fits uax9BracketPairs canon (map bview (rev (bstack h))) (map view es) = true -> extra = []).
Proof.
  intros NM. induction es as [|[r s] es IH]; intros h B I F.
  - exists []. simpl. rewrite app_nil_r. auto.
  - inversion B as [|? ? B1 B2]; subst. inversion I as [|? ? [I1 I1'] I2]; subst.
    rewrite bd16_run_cons. cbn [map view fst snd bd16 bd_fits].
    change (is_opening uax9BracketPairs r) with (is_op r).
    change (is_closing uax9BracketPairs r) with (is_cl r).
    cbn [fst snd] in *.
    destruct B1 as [(C1 & O1)|[(C1 & O1)|(C1 & O1 & O2)]]; cbn [fst snd] in *.
    + (* opening bracket *)
      rewrite (proj2 (is_op_spec r) O1).
      assert (ST : bd16_step h (r, s) = snd (push_opening h r s)).
      { unfold bd16_step, isbracket. rewrite C1. reflexivity. }
      rewrite ST. unfold push_opening, bs_push.
      rewrite map_length, rev_length.
      destruct (Z.leb_spec BD16MaxNesting (zlen (bstack h))) as [L|L].
      * (* full: BD16 stops, the code goes on *)
        unfold BD16MaxNesting, zlen in L.
        replace (length (bstack h) <? 63)%nat with false by (symmetry; apply Nat.ltb_ge; lia).
        cbn [snd andb]. destruct (run_keeps es (mkh (bstack h) (pairs h))) as [x X].
        exists x. split; [exact X|discriminate].
      * unfold BD16MaxNesting, zlen in L.
        replace (length (bstack h) <? 63)%nat with true by (symmetry; apply Nat.ltb_lt; lia).
        rewrite C1. cbn [negb Z.eqb cBRACKO Pos.eqb].
        pose proof (proj2 (is_op_spec r) O1) as O1'. unfold is_op in O1'.
        rewrite is_opening_find in O1'.
        rewrite find_opening_find.
        destruct (find (fun p => fst p =? r) uax9BracketPairs) as [p|] eqn:FD; [|discriminate].
        cbn [snd andb].
        pose proof (find_some _ _ FD) as [_ E]. apply Z.eqb_eq in E.
        assert (PP : paired uax9BracketPairs r = snd p) by (unfold paired; rewrite FD; reflexivity).
        destruct (IH (mkh (bstack h ++ [mkbp s p]) (pairs h)) B2 I2) as (x & X & Y).
        { cbn [bstack]. apply Forall_app. split; auto. constructor; auto.
          unfold elt_ok. cbn [bp_pair]. rewrite E. auto. }
        cbn [bstack pairs] in X, Y. rewrite rev_app_distr in X, Y. cbn [rev app map bview bp_pair bp_open] in X, Y.
        unfold bview in X at 1. unfold bview in Y at 1. cbn [bp_pair bp_open] in X, Y.
        exists x. rewrite PP. auto.
    + (* closing bracket *)
      assert (NO : is_op r = false).
      { destruct (is_op r) eqn:E; auto. exfalso. apply is_op_spec in E. eapply table_apart; eauto. }
      rewrite NO, (proj2 (is_cl_spec r) O1).
      assert (ST : bd16_step h (r, s) = snd (find_pair h r s)).
      { unfold bd16_step, isbracket. rewrite C1. reflexivity. }
      rewrite ST. unfold find_pair. rewrite pop_with_rpop.
      assert (F' : Forall (elt_ok os) (rev (bstack h))) by (apply Forall_rev; auto).
      pose proof (rpop_bd_pop os cs r (rev (bstack h)) NM I1' O1 F') as R.
      destruct (rpop r (rev (bstack h))) as [[x t]|].
      * destruct R as (R1 & R2 & R3). rewrite R1. cbn [snd].
        set (h' := mkh (rev t) _).
        destruct (IH h' B2 I2) as (y & Y1 & Y2).
        { subst h'. cbn [bstack]. apply Forall_rev. auto. }
        subst h'. cbn [bstack pairs] in Y1, Y2. rewrite rev_involutive in Y1, Y2.
        exists y. split; auto. rewrite Y1, (Permutation_map pview (insert_perm _ _ _)).
        cbn [map app]. unfold pview at 1. cbn [pg_open pg_brk pg_close].
        apply Permutation_middle.
      * rewrite R. cbn [snd]. apply IH; auto.
    + (* other character *)
      assert (NO : is_op r = false).
      { destruct (is_op r) eqn:E; auto. exfalso. apply O1. now apply is_op_spec. }
      assert (NC : is_cl r = false).
      { destruct (is_cl r) eqn:E; auto. exfalso. apply O2. now apply is_cl_spec. }
      rewrite NO, NC.
      assert (ST : bd16_step h (r, s) = h) by (unfold bd16_step; rewrite C1; reflexivity).
      rewrite ST. apply IH; auto.
Qed.
End Refinement.

(* ---- the pairs of BD16 are nested ---- *)
Section Nesting.
Context (table : list (Z * Z)) (canon : Z -> Z).

(* Stack positions descend from the top and lie below hi. *)
Fixpoint descending (hi : Z) (stk : list (Z * Z)) : Prop :=
  match stk with
  | [] => True
  | (_, q) :: t => q < hi /\ descending q t
  end.

Lemma descending_weaken hi hi' stk : hi <= hi' -> descending hi stk -> descending hi' stk.
Proof. destruct stk as [|[x q] t]; simpl; intros; auto. lia || (split; [lia|tauto]). Qed.

Lemma descending_in hi stk : descending hi stk -> forall q, In q (map snd stk) -> q < hi.
Proof.
  revert hi. induction stk as [|[x p] t IH]; simpl; intros hi D q I; [tauto|].
  destruct D as [D1 D2]. destruct I as [->|I]; auto. specialize (IH p D2 q I). lia.
Qed.

Lemma bd_pop_desc c hi stk q stk' : descending hi stk -> bd_pop c stk = Some (q, stk') ->
  q < hi /\ descending q stk' /\ In q (map snd stk) /\ incl (map snd stk') (map snd stk).
Proof.
  revert hi. induction stk as [|[x p] t IH]; simpl; intros hi D E; [discriminate|].
  destruct D as [D1 D2]. destruct (x =? c).
  - injection E as -> ->. repeat split; auto. intros z Z1. now right.
  - destruct (IH p D2 E) as (A & B & C & D). repeat split; auto; [lia|].
    intros z Z1. right. auto.
Qed.

Lemma bd16_in stk txt lo : ascending lo txt -> descending lo stk ->
  forall a b, In (a, b) (bd16 table canon stk txt) ->
  (In a (map snd stk) \/ lo <= a) /\ a < b /\ lo <= b.
Proof.
  revert stk lo. induction txt as [|[r p] t IH]; intros stk lo A D a b I; simpl in I; [tauto|].
  simpl in A. destruct A as [A1 A2].
  destruct (is_opening table r).
  - destruct (length stk <? 63)%nat; [|simpl in I; tauto].
    destruct (IH ((canon (paired table r), p) :: stk) (p + 1) A2) with (a := a) (b := b) as (X & Y & W);
      auto.
    { simpl. split; [lia|]. eapply descending_weaken; [|eauto]. lia. }
    simpl in X. split; [|lia]. destruct X as [[X|X]|X]; [right; lia|left; auto|right; lia].
  - destruct (is_closing table r).
    + destruct (bd_pop (canon r) stk) as [[q stk']|] eqn:E.
      * destruct (bd_pop_desc _ _ _ _ _ D E) as (B1 & B2 & B3 & B4).
        simpl in I. destruct I as [I|I].
        -- injection I as -> ->. split; auto. lia.
        -- destruct (IH stk' (p + 1) A2) with (a := a) (b := b) as (X & Y & W); auto.
           { eapply descending_weaken; [|eauto]. lia. }
           split; [|lia]. destruct X as [X|X]; [left; auto|right; lia].
      * destruct (IH stk (p + 1) A2) with (a := a) (b := b) as (X & Y & W); auto.
        { eapply descending_weaken; [|eauto]. lia. }
        split; [|lia]. destruct X as [X|X]; auto. right; lia.
    + destruct (IH stk (p + 1) A2) with (a := a) (b := b) as (X & Y & W); auto.
      { eapply descending_weaken; [|eauto]. lia. }
      split; [|lia]. destruct X as [X|X]; auto. right; lia.
Qed.

Lemma bd16_nested stk txt lo : ascending lo txt -> descending lo stk ->
  ForallOrdPairs nested_or_apart (bd16 table canon stk txt).
Proof.
  revert stk lo. induction txt as [|[r p] t IH]; intros stk lo A D; simpl; [constructor|].
  simpl in A. destruct A as [A1 A2].
  destruct (is_opening table r).
  - destruct (length stk <? 63)%nat; [|constructor].
    apply (IH _ (p + 1)); auto. simpl. split; [lia|]. eapply descending_weaken; [|eauto]. lia.
  - destruct (is_closing table r).
    + destruct (bd_pop (canon r) stk) as [[q stk']|] eqn:E.
      * destruct (bd_pop_desc _ _ _ _ _ D E) as (B1 & B2 & B3 & B4).
        assert (D' : descending (p + 1) stk') by (eapply descending_weaken; [|eauto]; lia).
        constructor.
        -- apply Forall_forall. intros [a b] I.
           destruct (bd16_in stk' t (p + 1) A2 D' a b I) as (X & Y & W).
           unfold nested_or_apart. cbn [fst snd]. split; [lia|]. split; [lia|].
           destruct X as [X|X]; [|lia]. pose proof (descending_in _ _ B2 a X). lia.
        -- apply (IH stk' (p + 1)); auto.
      * apply (IH _ (p + 1)); auto. eapply descending_weaken; [|eauto]; lia.
    + apply (IH _ (p + 1)); auto. eapply descending_weaken; [|eauto]; lia.
Qed.
End Nesting.

(* ---- looking up a pair ---- *)
Lemma nested_sym p q : nested_or_apart p q -> nested_or_apart q p.
Proof. unfold nested_or_apart. intros (A & B & C). repeat split; auto. intuition lia. Qed.

Lemma FOP_perm {A} (R : A -> A -> Prop) (Sy : forall x y, R x y -> R y x) l l' :
  Permutation l l' -> ForallOrdPairs R l -> ForallOrdPairs R l'.
Proof.
  induction 1; intros F; auto.
  - inversion F; subst. constructor; auto. eapply Permutation_Forall; eauto.
  - inversion F as [|? ? F1 F2]; subst. inversion F2 as [|? ? F3 F4]; subst.
    inversion F1; subst. constructor; [constructor; auto|]. constructor; auto.
Qed.

Definition key (s : scrap) (p : pairing) : Z := if clz s =? cBRACKO then sl (pg_open p) else sl (pg_close p).

Lemma find_pairing_find s ps : find_pairing ps s = find (fun p => key s p =? sl s) ps.
Proof.
  induction ps as [|p t IH]; simpl; auto. unfold key at 1.
  destruct (clz s =? cBRACKO); destruct (_ =? sl s); auto.
Qed.

Lemma find_unique s ps : ForallOrdPairs nested_or_apart (map pview ps) ->
  forall p, find_pairing ps s = Some p <-> In p ps /\ key s p = sl s.
Proof.
  rewrite find_pairing_find. intros F p. split.
  - intros E. apply find_some in E. destruct E as [E1 E2]. apply Z.eqb_eq in E2. auto.
  - induction ps as [|q t IH]; intros [I K]; [destruct I|].
    simpl in F. inversion F as [|? ? F1 F2]; subst. simpl.
    destruct I as [->|I].
    + rewrite K, Z.eqb_refl. reflexivity.
    + destruct (Z.eqb_spec (key s q) (sl s)) as [E|E]; [|apply IH; auto].
      exfalso. rewrite Forall_forall in F1. specialize (F1 (pview p) (in_map pview _ _ I)).
      unfold nested_or_apart, pview in F1. cbn [fst snd] in F1. unfold key in *.
      destruct (clz s =? cBRACKO); lia.
Qed.

Lemma find_none s ps : find_pairing ps s = None <-> ~ In (sl s) (map (key s) ps).
Proof.
  rewrite find_pairing_find. split.
  - intros E I. apply in_map_iff in I. destruct I as (p & K & I).
    pose proof (find_none _ _ E p I) as N. cbv beta in N. rewrite K, Z.eqb_refl in N. discriminate.
  - intros N. destruct (find _ ps) eqn:E; auto. exfalso. apply find_some in E. destruct E as [E1 E2].
    apply Z.eqb_eq in E2. apply N. rewrite <- E2. apply in_map. auto.
Qed.

(* ---- statements for the properties file ---- *)

(* The characters of a text for which matching by identity is as good as matching up to canonical
   equivalence (with the equivalences of Unicode 13). *)
Definition unmixed (es : list (Z * scrap)) : Prop := no_mix canon13 (map fst es) (map fst es).

Lemma bd16_pairs es :
  Forall bracket_char es -> unmixed es -> bd_fits uax9BracketPairs canon13 [] (map view es) = true ->
  Permutation (map pview (pairs (bd16_run new_handler es))) (bd16 uax9BracketPairs canon13 [] (map view es)).
Proof.
  intros B U F.
  destruct (run_refines canon13 (map fst es) (map fst es) U es new_handler B) as (x & X & Y).
  - apply Forall_forall. intros e I. split; apply in_map; auto.
  - constructor.
  - specialize (Y F). subst x. cbn [new_handler pairs bstack map rev app] in X.
    rewrite app_nil_r in X. exact X.
Qed.

Lemma bd16_superset es :
  Forall bracket_char es -> unmixed es ->
  incl (bd16 uax9BracketPairs canon13 [] (map view es)) (map pview (pairs (bd16_run new_handler es))).
Proof.
  intros B U.
  destruct (run_refines canon13 (map fst es) (map fst es) U es new_handler B) as (x & X & Y).
  - apply Forall_forall. intros e I. split; apply in_map; auto.
  - constructor.
  - intros p I. cbn [new_handler pairs bstack map rev app] in X.
    apply (Permutation_in p (Permutation_sym X)). apply in_or_app. auto.
Qed.

Lemma bd16_found es s :
  Forall bracket_char es -> unmixed es -> bd_fits uax9BracketPairs canon13 [] (map view es) = true ->
  ascending 0 (map view es) ->
  match find_pairing (pairs (bd16_run new_handler es)) s with
  | Some p => In (pview p) (bd16 uax9BracketPairs canon13 [] (map view es)) /\
              (if clz s =? cBRACKO then fst (pview p) else snd (pview p)) = sl s /\
              forall q, In q (bd16 uax9BracketPairs canon13 [] (map view es)) ->
                (if clz s =? cBRACKO then fst q else snd q) = sl s -> q = pview p
  | None => forall q, In q (bd16 uax9BracketPairs canon13 [] (map view es)) ->
              (if clz s =? cBRACKO then fst q else snd q) <> sl s
  end.
Proof.
  intros B U F A. pose proof (bd16_pairs es B U F) as P.
  assert (N : ForallOrdPairs nested_or_apart (map pview (pairs (bd16_run new_handler es)))).
  { eapply FOP_perm; [exact nested_sym|symmetry; exact P|].
    eapply bd16_nested; [exact A|exact I]. }
  assert (KEY : forall p, (if clz s =? cBRACKO then fst (pview p) else snd (pview p)) = key s p).
  { intros p. unfold key, pview. destruct (clz s =? cBRACKO); reflexivity. }
  destruct (find_pairing (pairs (bd16_run new_handler es)) s) as [p|] eqn:E.
  - pose proof (proj1 (find_unique s _ N p) E) as [I K].
    split; [|split].
    + apply (Permutation_in _ P). apply in_map. auto.
    + rewrite KEY. auto.
    + intros q Iq Kq. apply (Permutation_in _ (Permutation_sym P)) in Iq.
      apply in_map_iff in Iq. destruct Iq as (p' & <- & Ip'). rewrite KEY in Kq.
      pose proof (proj2 (find_unique s _ N p') (conj Ip' Kq)) as E'. congruence.
  - intros q Iq Kq. apply (Permutation_in _ (Permutation_sym P)) in Iq.
    apply in_map_iff in Iq. destruct Iq as (p' & <- & Ip'). rewrite KEY in Kq.
    apply (proj1 (find_none s _) E). rewrite <- Kq. apply in_map. auto.
Qed.

(* A character of a bracket text: the scrap the scanner hands to the handler. *)
Definition brk_scrap (c pos : Z) : scrap := mks c pos (pos + 1) dc0 [].
