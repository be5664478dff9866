(* SimplePair.v -- the verdict of the simple word breaker, for its use beside another breaker. *)
From Coq Require Import List ZArith Lia Bool.
From Verif Require Import Base Segmenter SegSpec SegProofs SegInv SegNext SegCut SegFacade BreakFacade Rows SegEager SegPair SimpleWord.
Import ListNotations.
Open Scope Z_scope.

Section Simple.
Context (isSpace : Z -> bool) (nul : isSpace 0 = false).
Notation step := (swb_step isSpace).
Notation cls := (CodePointClassFor isSpace).

(* type and length of the open run *)
Definition snext (s : Z * Z) (c : Z) : Z * Z := if c =? eofType then (eofType, 0) else if c =? fst s then (fst s, snd s + 1) else (c, 1).
Definition slam (s : Z * Z) : Z := snd s.
Definition spens (s : Z * Z) (c : Z) : list Z :=
  if c =? fst s then [] else if 0 <? snd s then [0; if fst s =? spaceType then PenaltyAfterWhitespace else PenaltyBeforeWhitespace] else [].
Notation srows := (rows snext slam spens).

Lemma cls_2 r : r <> 0 -> cls r = spaceType \/ cls r = wordType.
Proof. intros N. unfold CodePointClassFor. destruct (isSpace r); auto. destruct (Z.eqb_spec r 0); [contradiction|auto]. Qed.
Lemma cls_0 : cls 0 = eofType.
Proof. unfold CodePointClassFor. rewrite nul. reflexivity. Qed.
Lemma simple_rows : forall rs w, Forall (fun r => r <> 0) rs -> wtype w = spaceType \/ wtype w = wordType -> 0 <= wlen w (wtype w) ->
  (wlen w (wtype w) = 0 -> wpen w = []) -> wlen w eofType = 0 ->
  answers step w (rs ++ [0]) = srows (wtype w, wlen w (wtype w)) (map cls rs ++ [eofType]).
Proof.
  induction rs as [|r rs IH]; intros w H Ht Hn Hp He; cbn [app map answers rows].
  - unfold swb_step, ProceedWithRune. rewrite cls_0. cbn [Z.eqb negb andb fst snd].
    assert (Ne : (eofType =? wtype w) = false) by (destruct Ht as [-> | ->]; reflexivity). rewrite Ne. cbn [negb andb].
    unfold LongestActiveMatch. cbn [wtype wlen wpen]. rewrite He. unfold slam, snext, spens. cbn [fst snd Z.eqb]. rewrite Ne.
    change (eofType =? eofType) with true. cbn [snd]. f_equal. f_equal. rewrite Z.gtb_ltb. destruct (Z.ltb_spec 0 (wlen w (wtype w))); [reflexivity|]. apply Hp. lia.
  - inversion H; subst. pose proof (cls_2 r H2) as Hc.
    assert (Nz : (r =? 0) = false) by (now apply Z.eqb_neq). assert (Nc : (cls r =? eofType) = false) by (destruct Hc as [-> | ->]; reflexivity).
    set (w' := ProceedWithRune r (cls r) w).
    assert (E : wtype w' = cls r /\ wlen w' (cls r) = snd (snext (wtype w, wlen w (wtype w)) (cls r)) /\ wpen w' = spens (wtype w, wlen w (wtype w)) (cls r) /\ wlen w' eofType = 0 /\ 0 < wlen w' (cls r)).
    { unfold w', ProceedWithRune, snext, spens. rewrite Nz, Nc. cbn [negb andb fst snd]. destruct (Z.eqb_spec (cls r) (wtype w)) as [Ec|Ec]; cbn [negb andb].
      - cbn [wtype wlen wpen]. unfold upd. rewrite Ec, Z.eqb_refl. repeat split; try lia.
        destruct (Z.eqb_spec eofType (wtype w)) as [X|]; [destruct Ht as [Y|Y]; rewrite Y in X; discriminate|auto].
      - cbn [wtype wlen wpen]. unfold upd. rewrite Z.eqb_refl. rewrite (Z.eqb_sym eofType (cls r)), Nc. split; [reflexivity|]. split; [reflexivity|]. split; [|split; [|lia]].
        + rewrite Z.gtb_ltb. destruct (Z.ltb_spec 0 (wlen w (wtype w))); [reflexivity|]. apply Hp. lia.
        + destruct (Z.eqb_spec eofType (wtype w)); auto. }
    destruct E as (E1 & E2 & E3 & E4 & E5). change (step w r) with (w', LongestActiveMatch w', wpen w'). cbn [fst snd]. rewrite (IH w'); auto; try (rewrite E1; auto; lia).
    + rewrite E1. unfold LongestActiveMatch. rewrite E1.
      assert (X : (cls r, wlen w' (cls r)) = snext (wtype w, wlen w (wtype w)) (cls r)).
      { rewrite E2. unfold snext. rewrite Nc. cbn [fst snd]. destruct (Z.eqb_spec (cls r) (wtype w)) as [Ec|]; [rewrite Ec|]; reflexivity. }
      rewrite X, E2, E3. reflexivity.
Qed.

Section Text.
Context (text : list Z) (Nz : Forall (fun r => r <> 0) text).
Definition SV (i : nat) : bool := match skipn (S i) text with [] => true | r :: _ => negb (Bool.eqb (isSpace (nth i text 0)) (isSpace r)) end.
Notation an := (answers step NewSimpleWordBreaker (text ++ [0])).
Notation cs := (map cls text ++ [eofType]).
Lemma an_simple : an = srows (spaceType, 0) cs.
Proof. apply (simple_rows text NewSimpleWordBreaker Nz); auto; reflexivity. Qed.
Lemma len_simple : length an = S (length text).
Proof. rewrite an_simple, rows_len, app_length, map_length. cbn. lia. Qed.
Lemma nth_cs i : (i < length text)%nat -> nth i cs 0 = cls (nth i text 0).
Proof.
  intros Hi. rewrite app_nth1 by (rewrite map_length; auto). rewrite (nth_indep _ 0 (cls 0)) by (rewrite map_length; auto). apply map_nth.
Qed.
Lemma state_simple i : (i < length text)%nat -> fst (run snext (spaceType, 0) (firstn (S i) cs)) = cls (nth i text 0) /\ 0 < snd (run snext (spaceType, 0) (firstn (S i) cs)).
Proof.
  assert (Sn : forall i, (i < length text)%nat -> firstn (S i) cs = firstn i cs ++ [cls (nth i text 0)]).
  { intros j Hj. rewrite <- nth_cs by auto. assert (L : (j < length cs)%nat) by (rewrite app_length, map_length; lia). revert L. generalize cs. clear. induction j as [|j IH]; intros [|x l] H; cbn in H; try lia; [reflexivity|].
    change (firstn (S (S j)) (x :: l)) with (x :: firstn (S j) l). cbn [firstn nth app]. f_equal. rewrite <- IH by lia. reflexivity. }
  assert (C : forall i, (i < length text)%nat -> cls (nth i text 0) = spaceType \/ cls (nth i text 0) = wordType).
  { intros j Hj. apply cls_2. rewrite Forall_forall in Nz. apply Nz. now apply nth_In. }
  assert (G : forall s c, c = spaceType \/ c = wordType -> 0 <= snd s -> fst (snext s c) = c /\ 0 < snd (snext s c)).
  { intros s c Hc Hs. unfold snext. replace (c =? eofType) with false by (destruct Hc as [-> | ->]; reflexivity). destruct (Z.eqb_spec c (fst s)); cbn [fst snd]; [|lia]. split; [auto|lia]. }
  induction i as [|i IH]; intros Hi; rewrite Sn, run_app by auto; cbn [run fold_left].
  - apply G; [now apply C|cbn; lia].
  - change (fold_left snext (firstn (S i) cs) (spaceType, 0)) with (run snext (spaceType, 0) (firstn (S i) cs)). destruct (IH ltac:(lia)) as [_ P]. apply G; [now apply C|lia].
Qed.
Lemma pens_simple s c : (length (spens s c) <= 2)%nat /\ nth 0 (spens s c) 0 = 0.
Proof. unfold spens. destruct (c =? fst s); [cbn; lia|]. destruct (0 <? snd s); cbn; lia. Qed.
Lemma width_simple : Forall (fun a : answer => (length (snd a) <= 2)%nat) an.
Proof.
  rewrite an_simple. apply Forall_forall. intros a Ia. apply (In_nth _ _ (0, [])) in Ia. destruct Ia as (n & Hn & <-). rewrite rows_len in Hn. rewrite rows_nth by auto. apply pens_simple.
Qed.
Lemma test_simple k i : (i < length text)%nat -> (k <= length an)%nat -> test_after text an k i = (S i <? k)%nat && SV i.
Proof.
  intros Hi Hk. unfold test_after. assert (W : Forall (fun a : answer => (length (snd a) <= 2)%nat) (firstn k an)).
  { apply Forall_forall. intros a Ia. pose proof width_simple as H. rewrite Forall_forall in H. apply H. rewrite <- (firstn_skipn k an). apply in_or_app. auto. }
  rewrite (test_pos text _ 2) by auto. unfold total. cbn [seq map fold_right]. rewrite !pen_prefix. rewrite len_simple in Hk.
  assert (Lc : length cs = S (length text)) by (rewrite app_length, map_length; cbn; lia).
  assert (P0 : pen an i 0 = 0).
  { unfold pen. rewrite an_simple, rows_nth by lia. cbn [snd]. apply pens_simple. }
  rewrite P0. replace (if (i + 0 <? k)%nat then 0 else 0) with 0 by (destruct (_ <? _)%nat; reflexivity). rewrite Z.add_0_l, Z.add_0_r.
  replace (i + 1)%nat with (S i) by lia. destruct (S i <? k)%nat eqn:E; [|reflexivity]. cbn [andb]. unfold pen. replace (i + 1)%nat with (S i) by lia.
  rewrite an_simple, rows_nth by lia. cbn [snd]. destruct (state_simple i Hi) as [S1 S2]. unfold spens. rewrite S1. apply Z.ltb_lt in S2. rewrite S2.
  unfold SV. destruct (skipn (S i) text) as [|r u] eqn:Es.
  - assert (Ei : (length text <= S i)%nat) by (apply (f_equal (@length _)) in Es; rewrite skipn_length in Es; cbn in Es; lia).
    rewrite app_nth2 by (rewrite map_length; lia). rewrite map_length. replace (S i - length text)%nat with 0%nat by lia. cbn [nth].
    replace (eofType =? cls (nth i text 0)) with false.
    + match goal with |- context [if ?x =? spaceType then _ else _] => destruct (x =? spaceType) end; reflexivity.
    + destruct (cls_2 (nth i text 0)) as [-> | ->]; try reflexivity. rewrite Forall_forall in Nz. apply Nz. now apply nth_In.
  - assert (Li : (S i < length text)%nat) by (apply (f_equal (@length _)) in Es; rewrite skipn_length in Es; cbn in Es; lia).
    assert (Er : nth (S i) text 0 = r).
    { rewrite <- (firstn_skipn (S i) text), Es, app_nth2 by (rewrite firstn_length; lia). rewrite firstn_length. replace (S i - Nat.min (S i) (length text))%nat with 0%nat by lia. reflexivity. }
    rewrite nth_cs by auto. rewrite Er.
    assert (N1 : nth i text 0 <> 0) by (rewrite Forall_forall in Nz; apply Nz; now apply nth_In).
    assert (N2 : r <> 0) by (rewrite <- Er; rewrite Forall_forall in Nz; apply Nz; now apply nth_In).
    unfold CodePointClassFor. apply Z.eqb_neq in N1, N2. rewrite N1, N2. destruct (isSpace (nth i text 0)), (isSpace r); reflexivity.
Qed.
Lemma decides_simple : decides text an SV (fun _ => false).
Proof.
  split.
  - apply len_simple.
  - intros k i Hk Hi Hs T. rewrite test_simple in T by auto. apply andb_prop in T. apply T.
  - intros k i Hi Hk Hs _ V. rewrite len_simple in Hk. rewrite test_simple by (rewrite ?len_simple; lia). rewrite V, andb_true_r. apply Nat.ltb_lt. lia.
  - discriminate.
  - rewrite len_simple. cbn [lam_after]. rewrite an_simple, rows_nth by (rewrite app_length, map_length; cbn; lia). cbn [fst].
    assert (E : firstn (S (length text)) cs = map cls text ++ [eofType]) by (rewrite <- (map_length cls text), <- Nat.add_1_r; change 1%nat with (length [eofType]); rewrite <- app_length; apply firstn_all).
    rewrite E, run_app. cbn. lia.
Qed.
End Text.
End Simple.
