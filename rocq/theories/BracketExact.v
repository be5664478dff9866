(* BracketExact.v -- what the bracket handler records for every text, however many brackets are open. *)
From Coq Require Import List ZArith Lia Bool Permutation.
From Verif Require Import Base Scrap Brackets Bd16Spec BracketProofs.
Import ListNotations.
Open Scope Z_scope.

Section Spec.
Context (table : list (Z * Z)) (canon : Z -> Z).
(* As BD16, except that an opening bracket that meets a full stack is skipped. *)
Fixpoint bd_skip (stk : list (Z * Z)) (txt : list (Z * Z)) : list (Z * Z) :=
  match txt with
  | [] => []
  | (r, p) :: t =>
      if is_opening table r then bd_skip (if (length stk <? 63)%nat then (canon (paired table r), p) :: stk else stk) t
      else if is_closing table r
      then match bd_pop (canon r) stk with
           | Some (q, stk') => (q, p) :: bd_skip stk' t
           | None => bd_skip stk t
           end
      else bd_skip stk t
  end.
(* The pairs found by it in the remainder that BD16 does not look at. *)
Fixpoint bd_late (stk : list (Z * Z)) (txt : list (Z * Z)) : list (Z * Z) :=
  match txt with
  | [] => []
  | (r, p) :: t =>
      if is_opening table r then if (length stk <? 63)%nat then bd_late ((canon (paired table r), p) :: stk) t else bd_skip stk t
      else if is_closing table r
      then match bd_pop (canon r) stk with
           | Some (q, stk') => bd_late stk' t
           | None => bd_late stk t
           end
      else bd_late stk t
  end.
Lemma skip_split : forall txt stk, bd_skip stk txt = bd16 table canon stk txt ++ bd_late stk txt.
Proof.
  induction txt as [|[r p] t IH]; intros stk; [reflexivity|]. cbn [bd_skip bd16 bd_late]. destruct (is_opening table r).
  - destruct (length stk <? 63)%nat; [apply IH|reflexivity].
  - destruct (is_closing table r); [|apply IH]. destruct (bd_pop (canon r) stk) as [[q stk']|]; [|apply IH]. rewrite IH. reflexivity.
Qed.
Lemma late_fits : forall txt stk, bd_fits table canon stk txt = true -> bd_late stk txt = [].
Proof.
  induction txt as [|[r p] t IH]; intros stk H; [reflexivity|]. cbn [bd_fits bd_late] in *. destruct (is_opening table r).
  - apply andb_true_iff in H. destruct H as [H1 H2]. rewrite H1. apply IH, H2.
  - destruct (is_closing table r); [|apply IH, H]. destruct (bd_pop (canon r) stk) as [[q stk']|]; apply IH, H.
Qed.
End Spec.

Lemma run_skips canon os cs : no_mix canon os cs -> forall es h,
  Forall bracket_char es -> Forall (fun e => In (fst e) os /\ In (fst e) cs) es -> Forall (elt_ok os) (bstack h) ->
  Permutation (map pview (pairs (bd16_run h es))) (map pview (pairs h) ++ bd_skip uax9BracketPairs canon (map (bview canon) (rev (bstack h))) (map view es)).
Proof.
  intros NM. induction es as [|[r s] es IH]; intros h B I F; [cbn [map bd_skip]; rewrite app_nil_r; reflexivity|].
  inversion B as [|? ? B1 B2]; subst. inversion I as [|? ? [I1 I1'] I2]; subst.
  rewrite bd16_run_cons. cbn [map view fst snd bd_skip]. change (is_opening uax9BracketPairs r) with (is_op r). change (is_closing uax9BracketPairs r) with (is_cl r).
  cbn [fst snd] in *. destruct B1 as [(C1 & O1)|[(C1 & O1)|(C1 & O1 & O2)]]; cbn [fst snd] in *.
  - rewrite (proj2 (is_op_spec r) O1).
    assert (ST : bd16_step h (r, s) = snd (push_opening h r s)) by (unfold bd16_step, isbracket; rewrite C1; reflexivity).
    rewrite ST. unfold push_opening, bs_push. rewrite map_length, rev_length. destruct (Z.leb_spec BD16MaxNesting (zlen (bstack h))) as [L|L]; unfold BD16MaxNesting, zlen in L.
    + replace (length (bstack h) <? 63)%nat with false by (symmetry; apply Nat.ltb_ge; lia). cbn [snd]. apply (IH (mkh (bstack h) (pairs h))); auto.
    + replace (length (bstack h) <? 63)%nat with true by (symmetry; apply Nat.ltb_lt; lia).
      rewrite C1. cbn [negb Z.eqb cBRACKO Pos.eqb]. pose proof (proj2 (is_op_spec r) O1) as O1'. unfold is_op in O1'. rewrite is_opening_find in O1'. rewrite find_opening_find.
      destruct (find (fun p => fst p =? r) uax9BracketPairs) as [p|] eqn:FD; [|discriminate]. cbn [snd].
      pose proof (find_some _ _ FD) as [_ E]. apply Z.eqb_eq in E. assert (PP : paired uax9BracketPairs r = snd p) by (unfold paired; rewrite FD; reflexivity).
      assert (G : Forall (elt_ok os) (bstack (mkh (bstack h ++ [mkbp s p]) (pairs h)))).
      { cbn [bstack]. apply Forall_app. split; auto. constructor; auto. unfold elt_ok. cbn [bp_pair]. rewrite E. auto. }
      pose proof (IH (mkh (bstack h ++ [mkbp s p]) (pairs h)) B2 I2 G) as X. cbn [bstack pairs] in X. rewrite rev_app_distr in X. cbn [rev app map] in X.
      unfold bview in X at 1. cbn [bp_pair bp_open] in X. rewrite PP. exact X.
  - assert (NO : is_op r = false). { destruct (is_op r) eqn:E; auto. exfalso. apply is_op_spec in E. eapply table_apart; eauto. }
    rewrite NO, (proj2 (is_cl_spec r) O1). assert (ST : bd16_step h (r, s) = snd (find_pair h r s)) by (unfold bd16_step, isbracket; rewrite C1; reflexivity).
    rewrite ST. unfold find_pair. rewrite pop_with_rpop. assert (F' : Forall (elt_ok os) (rev (bstack h))) by (apply Forall_rev; auto).
    pose proof (rpop_bd_pop canon os cs r (rev (bstack h)) NM I1' O1 F') as R. destruct (rpop r (rev (bstack h))) as [[x t]|].
    + destruct R as (R1 & R2 & R3). rewrite R1. cbn [snd]. set (h' := mkh (rev t) _).
      assert (G : Forall (elt_ok os) (bstack h')) by (subst h'; cbn [bstack]; apply Forall_rev; auto).
      pose proof (IH h' B2 I2 G) as Y. subst h'. cbn [bstack pairs] in Y. rewrite rev_involutive in Y.
      rewrite Y, (Permutation_map pview (insert_perm _ _ _)). cbn [map app]. unfold pview at 1. cbn [pg_open pg_brk pg_close]. apply Permutation_middle.
    + rewrite R. cbn [snd]. apply IH; auto.
  - assert (NO : is_op r = false). { destruct (is_op r) eqn:E; auto. exfalso. apply O1. now apply is_op_spec. }
    assert (NC : is_cl r = false). { destruct (is_cl r) eqn:E; auto. exfalso. apply O2. now apply is_cl_spec. }
    rewrite NO, NC. assert (ST : bd16_step h (r, s) = h) by (unfold bd16_step; rewrite C1; reflexivity). rewrite ST. apply IH; auto.
Qed.

Lemma recorded canon es : Forall bracket_char es -> no_mix canon (map fst es) (map fst es) ->
  Permutation (map pview (pairs (bd16_run new_handler es))) (bd_skip uax9BracketPairs canon [] (map view es)).
Proof.
  intros B N. apply (run_skips canon (map fst es) (map fst es) N es new_handler B); [|constructor].
  apply Forall_forall. intros e I. split; apply in_map; exact I.
Qed.
(* With brackets matched by identity there is no further condition. *)
Lemma recorded_id es : Forall bracket_char es -> Permutation (map pview (pairs (bd16_run new_handler es))) (bd_skip uax9BracketPairs (fun x => x) [] (map view es)).
Proof. intros B. apply recorded; [exact B|]. intros o c _ _ _ _ E. exact E. Qed.
(* The pairs are those of BD16 exactly if none is found behind the place where BD16 stops. *)
Lemma right_iff canon es : Forall bracket_char es -> no_mix canon (map fst es) (map fst es) ->
  Permutation (map pview (pairs (bd16_run new_handler es))) (bd16 uax9BracketPairs canon [] (map view es)) <-> bd_late uax9BracketPairs canon [] (map view es) = [].
Proof.
  intros B N. pose proof (recorded canon es B N) as P. rewrite skip_split in P. split.
  - intros Q. pose proof (Permutation_length (Permutation_trans (Permutation_sym Q) P)) as L. rewrite app_length in L. apply length_zero_iff_nil. lia.
  - intros E. rewrite E, app_nil_r in P. exact P.
Qed.

(* ---- nesting and lookup, for every text ---- *)
Section Nest.
Context (table : list (Z * Z)) (canon : Z -> Z).
Lemma skip_in stk txt lo : ascending lo txt -> descending lo stk ->
  forall a b, In (a, b) (bd_skip table canon stk txt) -> (In a (map snd stk) \/ lo <= a) /\ a < b /\ lo <= b.
Proof.
  revert stk lo. induction txt as [|[r p] t IH]; intros stk lo A D a b I; cbn [bd_skip] in I; [destruct I|].
  cbn [ascending] in A. destruct A as [A1 A2]. assert (DP : descending (p + 1) stk) by (eapply (descending_weaken canon); [|exact D]; lia).
  assert (KEEP : In (a, b) (bd_skip table canon stk t) -> (In a (map snd stk) \/ lo <= a) /\ a < b /\ lo <= b).
  { intros J. destruct (IH stk (p + 1) A2 DP a b J) as (X & Y & W). split; [|lia]. destruct X; [left; auto|right; lia]. }
  destruct (is_opening table r).
  - destruct (length stk <? 63)%nat; [|apply KEEP, I].
    destruct (IH ((canon (paired table r), p) :: stk) (p + 1) A2) with (a := a) (b := b) as (X & Y & W); auto.
    { cbn [descending]. split; [lia|]. eapply (descending_weaken canon); [|exact D]. lia. }
    split; [|lia]. destruct X as [X|X]; [|right; lia]. cbn [map snd In] in X. destruct X as [X|X]; [right; lia|left; exact X].
  - destruct (is_closing table r); [|apply KEEP, I].
    destruct (bd_pop (canon r) stk) as [[q stk']|] eqn:E; [|apply KEEP, I].
    destruct (bd_pop_desc _ _ _ _ _ D E) as (B1 & B2 & B3 & B4). destruct I as [I|I].
    + injection I as -> ->. split; auto. lia.
    + destruct (IH stk' (p + 1) A2) with (a := a) (b := b) as (X & Y & W); auto. { eapply (descending_weaken canon); [|exact B2]. lia. }
      split; [|lia]. destruct X as [X|X]; [left; auto|right; lia].
Qed.
Lemma skip_nested stk txt lo : ascending lo txt -> descending lo stk -> ForallOrdPairs nested_or_apart (bd_skip table canon stk txt).
Proof.
  revert stk lo. induction txt as [|[r p] t IH]; intros stk lo A D; cbn [bd_skip]; [constructor|].
  cbn [ascending] in A. destruct A as [A1 A2]. assert (DP : descending (p + 1) stk) by (eapply (descending_weaken canon); [|exact D]; lia).
  destruct (is_opening table r).
  - apply (IH _ (p + 1)); auto. destruct (length stk <? 63)%nat; [|exact DP]. cbn [descending]. split; [lia|]. eapply (descending_weaken canon); [|exact D]. lia.
  - destruct (is_closing table r); [|apply (IH _ (p + 1)); auto].
    destruct (bd_pop (canon r) stk) as [[q stk']|] eqn:E; [|apply (IH _ (p + 1)); auto].
    destruct (bd_pop_desc _ _ _ _ _ D E) as (B1 & B2 & B3 & B4). assert (D' : descending (p + 1) stk') by (eapply (descending_weaken canon); [|exact B2]; lia).
    constructor; [|apply (IH stk' (p + 1)); auto].
    apply Forall_forall. intros [a b] I. destruct (skip_in stk' t (p + 1) A2 D' a b I) as (X & Y & W).
    unfold nested_or_apart. cbn [fst snd]. split; [lia|]. split; [lia|]. destruct X as [X|X]; [|lia]. pose proof (descending_in canon _ _ B2 a X). lia.
Qed.
End Nest.

Lemma lookup_exact es s p : Forall bracket_char es -> ascending 0 (map view es) ->
  (exists g, find_pairing (pairs (bd16_run new_handler es)) s = Some g /\ pview g = p) <->
  In p (bd_skip uax9BracketPairs (fun x => x) [] (map view es)) /\ (if clz s =? cBRACKO then fst p else snd p) = sl s.
Proof.
  intros B A. pose proof (recorded_id es B) as P.
  assert (N : ForallOrdPairs nested_or_apart (map pview (pairs (bd16_run new_handler es)))).
  { eapply FOP_perm; [exact nested_sym|symmetry; exact P|]. eapply skip_nested; [exact A|exact Logic.I]. }
  assert (KEY : forall g, (if clz s =? cBRACKO then fst (pview g) else snd (pview g)) = key s g) by (intros g; unfold key, pview; destruct (clz s =? cBRACKO); reflexivity).
  split.
  - intros (g & E & <-). apply (find_unique s _ N g) in E. destruct E as [I K]. split; [|rewrite KEY; exact K]. apply (Permutation_in _ P), in_map, I.
  - intros [I K]. apply (Permutation_in _ (Permutation_sym P)) in I. apply in_map_iff in I. destruct I as (g & <- & I). exists g. split; [|reflexivity].
    apply find_unique; [exact N|]. rewrite KEY in K. auto.
Qed.
