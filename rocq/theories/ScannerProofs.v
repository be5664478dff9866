(* ScannerProofs.v -- the scanner terminates without panic and its scraps tile the text. *)
From Coq Require Import List ZArith Lia Bool.
From Verif Require Import Base Scrap Brackets Scanner ReorderSpec SplitProofs.
Import ListNotations.
Open Scope Z_scope.

Section Props.
Context (md : mode) (props : Z -> Z * Z) (upper : Z -> bool) (markup : option (Z -> Z)).

(* The runes of the paragraph: up to the first paragraph separator, if these are not ignored. *)
Fixpoint para (input : list (Z * Z)) : list (Z * Z) :=
  match input with
  | [] => []
  | (r, len) :: t => if (fst (props r) =? cB) && negb (m_ignore md) then [] else (r, len) :: para t
  end.

Definition total (l : list (Z * Z)) : Z := fold_right (fun x n => snd x + n) 0 l.
Definition lens_ok (l : list (Z * Z)) : Prop := Forall (fun x => 0 <= snd x) l.

Lemma total_nonneg l : lens_ok l -> 0 <= total l.
Proof. induction 1; simpl; lia. Qed.

Lemma para_lens l : lens_ok l -> lens_ok (para l).
Proof.
  induction 1 as [|[r len] t H _ IH]; simpl; [constructor|]. destruct (_ && _); [constructor|]. constructor; auto.
Qed.

(* ---- handlers ---- *)
Definition hok (st : scst) : Prop :=
  (s_bd st < length (s_hs st))%nat /\
  irs_find (s_irs st) 0 <> None /\
  (forall k i, irs_find (s_irs st) k = Some i -> (i < length (s_hs st))%nat) /\
  Forall (fun k => irs_find (s_irs st) k <> None) (s_stack st) /\
  (forall i h j, nth_error (s_hs st) i = Some h -> h_next h = Some j -> (i < j < length (s_hs st))%nat).

Definition same_h (a b : scst) : Prop :=
  s_hs a = s_hs b /\ s_irs a = s_irs b /\ s_stack a = s_stack b /\ s_bd a = s_bd b.

Lemma hok_same a b : same_h a b -> hok a -> hok b.
Proof. intros (A & B & C & D) H. unfold hok in *. rewrite <- A, <- B, <- C, <- D. exact H. Qed.

Lemma last_irs_ok hs : (forall i h j, nth_error hs i = Some h -> h_next h = Some j -> (i < j < length hs)%nat) ->
  forall n i, (i < length hs)%nat -> (length hs <= n + i)%nat -> exists k, last_irs hs n i = Some k /\ (k < length hs)%nat.
Proof.
  intros H. induction n as [|n IH]; intros i L B; [lia|]. cbn [last_irs].
  destruct (nth_error hs i) as [h|] eqn:E; [|apply nth_error_None in E; lia]. cbn [obind].
  destruct (h_next h) as [j|] eqn:J; [|exists i; auto].
  pose proof (H i h j E J). apply IH; lia.
Qed.

Lemma nth_nset {A} (l : list A) n m a : nth_error (nset l n a) m =
  if (n =? m)%nat then (if (n <? length l)%nat then Some a else None) else nth_error l m.
Proof.
  destruct (Nat.eqb_spec n m) as [->|N]; [|apply nset_other; auto].
  destruct (Nat.ltb_spec m (length l)); [apply nset_same; auto|].
  apply nth_error_None. rewrite nset_length. lia.
Qed.

Lemma switch_ok st s : hok st -> exists st', handleIsolatingRunSwitch st s = Some st' /\ hok st' /\
  s_rest st' = s_rest st /\ s_mpos st' = s_mpos st /\ s_mk st' = s_mk st /\ s_ctx st' = s_ctx st.
Proof.
  intros H. pose proof H as (H1 & H2 & H3 & H4 & H5). unfold handleIsolatingRunSwitch.
  destruct (clz s =? cPDI).
  - destruct (s_stack st) as [|k0 stk0] eqn:ES; [exists st; auto 6|]. rewrite <- ES in *. clear ES.
    destruct (nth_error (s_hs st) (s_bd st)) as [h|] eqn:E; [|apply nth_error_None in E; lia]. cbn [obind].
    assert (F : Forall (fun k => irs_find (s_irs st) k <> None) (removelast (s_stack st))).
    { clear -H4. induction (s_stack st) as [|x t IH]; [constructor|]. inversion H4; subst.
      destruct t; [constructor|]. constructor; auto. }
    assert (B : exists bd, match removelast (s_stack st) with
                 | [] => Some (s_bd st)
                 | t :: _ => irs_find (s_irs st) (last (removelast (s_stack st)) t)
                 end = Some bd /\ (bd < length (s_hs st))%nat).
    { destruct (removelast (s_stack st)) as [|t u] eqn:ER; [exists (s_bd st); auto|].
      assert (I : In (last (t :: u) t) (t :: u)).
      { destruct (exists_last (l := t :: u)) as (p & x & ->); [discriminate|]. rewrite last_last. apply in_or_app. right. left. auto. }
      rewrite Forall_forall in F. specialize (F _ I).
      destruct (irs_find (s_irs st) (last (t :: u) t)) as [b|] eqn:EB; [|congruence]. exists b. eauto. }
    destruct B as (bd & -> & LB). cbn [obind]. eexists. split; [reflexivity|]. split; [|auto].
    unfold hok. cbn [s_hs s_irs s_stack s_bd]. rewrite nset_length. split; auto. split; auto. split; [eauto|]. split; auto.
    intros i h' j. rewrite nth_nset. destruct (Nat.eqb_spec (s_bd st) i) as [<-|N].
    + replace (s_bd st <? length (s_hs st))%nat with true by (symmetry; apply Nat.ltb_lt; auto).
      intros X Y. injection X as <-. cbn in Y. eauto.
    + eauto.
  - destruct (irs_find (s_irs st) 0) as [i0|] eqn:E0; [|congruence]. cbn [obind].
    destruct (last_irs_ok (s_hs st) H5 (length (s_hs st)) i0) as (i & -> & LI); [eauto|lia|]. cbn [obind].
    destruct (nth_error (s_hs st) i) as [h|] eqn:E; [|apply nth_error_None in E; lia]. cbn [obind].
    eexists. split; [reflexivity|]. split; [|auto].
    unfold hok. cbn [s_hs s_irs s_stack s_bd]. rewrite app_length, nset_length. cbn [length].
    split; [lia|]. split; [|split; [|split]].
    + cbn [irs_find]. destruct (sl s =? 0); congruence.
    + intros k j. cbn [irs_find]. destruct (sl s =? k).
      * intros X. injection X as <-. lia.
      * intros X. apply H3 in X. lia.
    + apply Forall_app. split.
      * eapply Forall_impl; [|exact H4]. intros k K. cbn [irs_find]. destruct (sl s =? k); congruence.
      * constructor; [|constructor]. cbn [irs_find]. rewrite Z.eqb_refl. discriminate.
    + intros i' h' j X Y.
      destruct (Nat.lt_ge_cases i' (length (s_hs st))) as [L|L].
      * rewrite nth_error_app1 in X by (rewrite nset_length; auto). rewrite nth_nset in X.
        destruct (Nat.eqb_spec i i') as [<-|N].
        -- replace (i <? length (s_hs st))%nat with true in X by (symmetry; apply Nat.ltb_lt; auto).
           injection X as <-. cbn in Y. injection Y as <-. lia.
        -- pose proof (H5 _ _ _ X Y). lia.
      * rewrite nth_error_app2 in X by (rewrite nset_length; auto). rewrite nset_length in X.
        destruct (i' - length (s_hs st))%nat as [|[|?]]; cbn in X; try discriminate.
        injection X as <-. discriminate.
Qed.

Lemma bd16_ok st r s : hok st -> exists st', prepareRuleBD16 st r s = Some st' /\ hok st' /\
  s_rest st' = s_rest st /\ s_mpos st' = s_mpos st /\ s_mk st' = s_mk st /\ s_ctx st' = s_ctx st.
Proof.
  intros H. pose proof H as (H1 & H2 & H3 & H4 & H5). unfold prepareRuleBD16.
  destruct (negb (isbracket s)); [exists st; auto 6|].
  destruct (nth_error (s_hs st) (s_bd st)) as [h|] eqn:E; [|apply nth_error_None in E; lia]. cbn [obind].
  eexists. split; [reflexivity|]. split; [|auto].
  unfold hok. cbn [s_hs s_irs s_stack s_bd]. rewrite nset_length. split; auto. split; auto. split; auto. split; auto.
  intros i h' j. rewrite nth_nset. destruct (Nat.eqb_spec (s_bd st) i) as [<-|N].
  + replace (s_bd st <? length (s_hs st))%nat with true by (symmetry; apply Nat.ltb_lt; auto).
    intros X Y. injection X as <-. cbn in Y. eauto.
  + eauto.
Qed.

(* ---- reading ---- *)
Definition mu (st : scst) (pos : Z) : nat :=
  (3 * length (s_rest st) + (if (0 <? s_mk st)%Z then 1 else 0) + (if (s_mpos st <? pos)%Z then 2 else 0))%nat.

(* The class that a rune of the text has for the scanner. *)
Definition eff (r : Z) : Z :=
  let (c, b) := props r in
  let c := if c =? cB then cWS else c in
  test_class md upper r (if b =? 1 then cBRACKO else if b =? 2 then cBRACKC else c).

Lemma read_rune_spec st inp st' : read_rune md props st = (inp, st') -> lens_ok (s_rest st) ->
  same_h st st' /\ s_ctx st' = s_ctx st /\ lens_ok (s_rest st') /\ s_mk st' = s_mk st /\ s_mpos st' = s_mpos st /\
  match inp with
  | None => para (s_rest st) = []
  | Some (r, len, c) => s_rest st = (r, len) :: s_rest st' /\ para (s_rest st) = (r, len) :: para (s_rest st') /\
      test_class md upper r c = eff r
  end.
Proof.
  unfold read_rune. intros H L. destruct (s_rest st) as [|[r len] t] eqn:E.
  - injection H as <- <-. rewrite E. repeat split; auto.
  - inversion L as [|? ? L1 L2]; subst. destruct (props r) as [c b] eqn:EP.
    cbn [para fst]. rewrite EP. cbn [fst].
    destruct ((c =? cB) && negb (m_ignore md)) eqn:EB; injection H as <- <-; cbn; repeat split; auto.
    unfold eff. rewrite EP. reflexivity.
Qed.

(* The next character, from the text or from the markup, has a class of this kind. *)
Definition from_text (st : scst) (r len c : Z) (st' : scst) : Prop :=
  s_rest st = (r, len) :: s_rest st' /\ para (s_rest st) = (r, len) :: para (s_rest st') /\
  test_class md upper r c = eff r.
Definition from_markup (st : scst) (r len c : Z) (st' : scst) : Prop :=
  markup <> None /\ r = 0 /\ len = 0 /\ s_rest st' = s_rest st /\ (c = 0 \/ c = cLRI \/ c = cRLI \/ c = cPDI).

Lemma nextRune_spec st pos inp st' : nextRune md props markup st pos = (inp, st') -> lens_ok (s_rest st) ->
  same_h st st' /\ s_ctx st' = s_ctx st /\ lens_ok (s_rest st') /\
  match inp with
  | None => para (s_rest st) = []
  | Some (r, len, c) =>
      0 <= len /\ total (para (s_rest st)) = len + total (para (s_rest st')) /\
      (mu st' (pos + len) < mu st pos)%nat /\
      (from_text st r len c st' \/ from_markup st r len c st')
  end.
Proof.
  intros H L.
  assert (RD : read_rune md props st = (inp, st') ->
    same_h st st' /\ s_ctx st' = s_ctx st /\ lens_ok (s_rest st') /\
    match inp with
    | None => para (s_rest st) = []
    | Some (r, len, c) =>
        0 <= len /\ total (para (s_rest st)) = len + total (para (s_rest st')) /\
        (mu st' (pos + len) < mu st pos)%nat /\ (from_text st r len c st' \/ from_markup st r len c st')
    end).
  { intros R. destruct (read_rune_spec _ _ _ R L) as (A & B & C & D & E & F). split; auto. split; auto. split; auto.
    destruct inp as [[[r len] c]|]; auto. destruct F as (F1 & F2 & F3).
    assert (0 <= len) by (rewrite F1 in L; inversion L; auto). split; auto. split; [rewrite F2; reflexivity|].
    split; [|left; split; auto]. unfold mu. rewrite D, E, F1. cbn [length].
    destruct (s_mpos st <? pos) eqn:P1, (s_mpos st <? pos + len) eqn:P2; try lia.
    }
  unfold nextRune in H. destruct markup as [f|] eqn:EM; [|auto].
  destruct (0 <? s_mk st) eqn:E1.
  - injection H as <- <-. cbn [s_hs s_rest s_ctx]. split; [unfold same_h; auto|]. split; auto. split; auto.
    split; [lia|]. split; [lia|]. split.
    + unfold mu. cbn [s_rest s_mk s_mpos]. rewrite E1, Z.add_0_r, !Z.ltb_irrefl. destruct (s_mpos st <? pos); lia.
    + right. split; [rewrite EM; discriminate|]. repeat split; auto. unfold markupToBidi.
      destruct (_ || _); auto. destruct (_ || _); auto. destruct (_ =? _); auto.
  - destruct ((s_mpos st <? pos) && (0 <? f pos)) eqn:E2; [|auto].
    apply andb_true_iff in E2. destruct E2 as [E2 E3].
    assert (M : forall k, (mu (mksc (s_rest st) pos k (s_hs st) (s_irs st) (s_stack st) (s_bd st) (s_ctx st)) (pos + 0) < mu st pos)%nat).
    { intros k. unfold mu. cbn [s_rest s_mk s_mpos]. rewrite E1, E2, Z.add_0_r, Z.ltb_irrefl. destruct (0 <? k); lia. }
    destruct (0 <? Z.land (f pos) MarkupPDI); injection H as <- <-; cbn [s_hs s_rest s_ctx];
      (split; [unfold same_h; auto|]; split; auto; split; auto; split; [lia|]; split; [lia|]; split; [apply M|]);
      right; (split; [rewrite EM; discriminate|]); repeat split; auto.
    unfold markupToBidi. destruct (_ || _); auto. destruct (_ || _); auto. destruct (_ =? _); auto.
Qed.

(* ---- one round ---- *)
Definition la_of (cur : scrap) (c len : Z) : scrap := mks (applyRulesW1to3 c cur) (sr cur) (sr cur + len) dc0 [].

(* The state after a round, given the character read. *)
Definition round (st : scst) (cur : scrap) (al : Z) (c len : Z) (out : list scrap) (st' : scst) (cur' : scrap) (al' : Z) : Prop :=
  let la := la_of cur c len in
  hok st' /\ lens_ok (s_rest st') /\
  (out = [] /\ cur' = collapse cur la (clz cur) /\ clz la = clz cur /\ clz cur <> cNULL /\
     isbracket cur = false /\ isisolate cur = false /\ al' = al /\ s_ctx st' = s_ctx st \/
   out = (if clz cur =? cNULL then [] else [cur]) /\
     (clz cur = cNULL \/ clz cur <> clz la \/ isbracket cur = true \/ isisolate cur = true) /\
     (exists d, (d = sctx cur \/ clz cur = cPDI /\ In d (s_ctx st)) /\ cur' = inheritStrongTypes la (with_ctx cur d) al) /\
     al' = (if c =? cAL then sr cur else al) /\ incl (s_ctx st') (sctx cur :: s_ctx st) /\
     (isisolate la = false -> isisolate cur = false -> s_ctx st' = s_ctx st)).

Lemma in_removelast {A} (l : list A) x : In x (removelast l) -> In x l.
Proof.
  induction l as [|a t IH]; [auto|]. destruct t as [|b u]; [intros []|].
  intros [->|H]; [left; auto|right; auto].
Qed.

Lemma in_last {A} (l : list A) d : l <> [] -> In (last l d) l.
Proof. intros N. destruct (exists_last N) as (p & x & ->). rewrite last_last. apply in_or_app. right. left. auto. Qed.

Lemma step_spec st cur al : hok st -> lens_ok (s_rest st) -> 0 <= sr cur -> sr cur + total (para (s_rest st)) < 2 ^ 32 ->
  (scan_step md props upper markup st cur al = Some ([cur; stopper], None) /\ para (s_rest st) = []) \/
  exists out st' cur' al' r len c st1,
    scan_step md props upper markup st cur al = Some (out, Some (st', cur', al')) /\
    round st cur al (test_class md upper r c) len out st' cur' al' /\
    s_rest st' = s_rest st1 /\
    0 <= len /\ total (para (s_rest st)) = len + total (para (s_rest st')) /\ (mu st' (sr cur') < mu st (sr cur))%nat /\
    sr cur' = sr cur + len /\
    (from_text st r len c st1 \/ from_markup st r len c st1).
Proof.
  intros H L P B. unfold scan_step.
  destruct (nextRune md props markup st (sr cur)) as [inp st1] eqn:EN.
  destruct (nextRune_spec _ _ _ _ EN L) as (SH & SC & L1 & IN).
  pose proof (hok_same _ _ SH H) as H1.
  destruct inp as [[[r len] c]|].
  2:{ left. split; auto. destruct (isisolate cur); [|reflexivity].
      destruct (switch_ok st1 cur H1) as (st2 & -> & _). reflexivity. }
  right. destruct IN as (LN & TT & MU & FT).
  assert (TN : 0 <= total (para (s_rest st1))) by (apply total_nonneg, para_lens; auto).
  assert (UU : u32 (sr cur + len) = sr cur + len) by (unfold u32; apply Z.mod_small; lia).
  rewrite UU. fold (la_of cur (test_class md upper r c) len). set (la := la_of cur (test_class md upper r c) len).
  assert (SL : sr la = sr cur + len) by reflexivity.
  destruct (finished cur la) eqn:FI.
  - assert (SW : exists st2, (if negb (clz cur =? cNULL) && isisolate cur then handleIsolatingRunSwitch st1 cur else Some st1) = Some st2 /\
      hok st2 /\ s_rest st2 = s_rest st1 /\ s_mpos st2 = s_mpos st1 /\ s_mk st2 = s_mk st1 /\ s_ctx st2 = s_ctx st1).
    { destruct (_ && _); [apply switch_ok; auto|exists st1; auto 6]. }
    destruct SW as (st2 & -> & H2 & R2 & P2 & K2 & C2). cbn [obind].
    set (pr := if isisolate la && negb (clz la =? cPDI) then _ else _).
    assert (PR : exists st3 d, pr = (st3, with_ctx cur d) /\ hok st3 /\ s_rest st3 = s_rest st1 /\ s_mpos st3 = s_mpos st1 /\
      s_mk st3 = s_mk st1 /\ incl (s_ctx st3) (sctx cur :: s_ctx st) /\ (d = sctx cur \/ clz cur = cPDI /\ In d (s_ctx st)) /\
      (isisolate la = false -> isisolate cur = false -> s_ctx st3 = s_ctx st)).
    { assert (WC : with_ctx cur (sctx cur) = cur) by (destruct cur; reflexivity).
      unfold pr. rewrite C2, SC. destruct (isisolate la && negb (clz la =? cPDI)) eqn:EI.
      - exists (with_ctxs st2 (s_ctx st ++ [sctx cur])), (sctx cur). rewrite WC. split; auto. split; [exact H2|].
        cbn [with_ctxs s_rest s_mpos s_mk s_ctx]. split; auto. split; auto. split; auto. split; [|split; auto].
        + intros x I. apply in_app_iff in I. destruct I as [I|[->|[]]]; [right|left]; auto.
        + intros X. rewrite X in EI. discriminate.
      - destruct (s_ctx st) as [|x t] eqn:EC.
        + exists st2, (sctx cur). rewrite WC, C2, SC. do 5 (split; auto). split; [intros y []|split; auto].
        + destruct (clz cur =? cPDI) eqn:EP.
          * exists (with_ctxs st2 (removelast (x :: t))), (last (x :: t) x). split; auto. split; [exact H2|].
            cbn [with_ctxs s_rest s_mpos s_mk s_ctx]. split; auto. split; auto. split; auto. split; [|split].
            -- intros y I. right. apply in_removelast. exact I.
            -- right. split; [apply Z.eqb_eq, EP|apply in_last; discriminate].
            -- intros _ X. unfold isisolate in X. rewrite EP, !orb_true_r in X. discriminate.
          * exists st2, (sctx cur). rewrite WC, C2, SC. split; auto. split; auto. split; auto. split; auto. split; auto. split; [|split; auto]. intros y I. right. exact I. }
    destruct PR as (st3 & d & -> & H3 & R3 & P3 & K3 & I3 & D3 & E3).
    set (la' := inheritStrongTypes la (with_ctx cur d) al).
    destruct (bd16_ok st3 r la' H3) as (st4 & -> & H4 & R4 & P4 & K4 & C4). cbn [obind].
    exists (if clz cur =? cNULL then [] else [cur]), st4, la', (if test_class md upper r c =? cAL then sl la' else al), r, len, c, st1.
    split; [reflexivity|]. split.
    + split; auto. split; [rewrite R4, R3; auto|]. right. split; auto. split.
      { unfold finished in FI. repeat rewrite orb_true_iff in FI. destruct FI as [[[F|F]|F]|F]; auto.
        - left. apply Z.eqb_eq. auto.
        - right. left. apply negb_true_iff, Z.eqb_neq in F. auto. }
      split; [exists d; split; auto|]. split; [reflexivity|]. rewrite C4. split; auto.
    + split; [rewrite R4; auto|]. split; auto. rewrite R4, R3. split; auto. split; [|split; auto].
      change (sr la') with (sr la). rewrite SL. unfold mu in *. rewrite R4, R3, P4, P3, K4, K3. exact MU.
  - exists [], st1, (collapse cur la (clz cur)), al, r, len, c, st1. split; [reflexivity|]. split.
    + split; auto. split; auto. left. unfold finished in FI. repeat rewrite orb_false_iff in FI.
      destruct FI as [[[F1 F2] F3] F4]. apply Z.eqb_neq in F1. apply negb_false_iff, Z.eqb_eq in F2.
      repeat (split; auto).
    + split; [reflexivity|]. split; [exact LN|]. split; [exact TT|]. split; [|split; [reflexivity|exact FT]].
      change (sr (collapse cur la (clz cur))) with (sr la). rewrite SL. exact MU.
Qed.

(* ---- the loop, with an invariant ---- *)
Section Loop.
Context (I : scst -> scrap -> Z -> Prop).   (* holds of the state of the loop *)
Context (Q : scrap -> Prop).                (* holds of the scraps sent *)
Context (R : scrap -> scrap -> Prop).       (* holds of consecutive scraps sent *)
Definition preserved : Prop := forall st cur al r len c st1 out st' cur' al',
  I st cur al -> (from_text st r len c st1 \/ from_markup st r len c st1) ->
  round st cur al (test_class md upper r c) len out st' cur' al' -> s_rest st' = s_rest st1 -> 0 <= len ->
  I st' cur' al' /\ (clz cur <> cNULL -> clz cur' <> cNULL) /\
  (out <> [] -> forall b, clz b = clz cur' -> sctx b = sctx cur' -> R cur b).
Definition exported : Prop := forall st cur al, I st cur al -> clz cur <> cNULL -> Q cur.

Fixpoint linked (ss : list scrap) : Prop :=
  match ss with
  | a :: ((b :: _) as t) => R a b /\ linked t
  | _ => True
  end.

Lemma scan_tiles (PR : preserved) (EX : exported) : forall n st cur al,
  hok st -> lens_ok (s_rest st) -> 0 <= sl cur <= sr cur -> sr cur + total (para (s_rest st)) < 2 ^ 32 ->
  clz cur <> cNULL -> I st cur al -> (mu st (sr cur) < n)%nat ->
  exists ss, scan_loop md props upper markup n st cur al = Ok (ss ++ [stopper]) /\
    tiles (sl cur) ss (sr cur + total (para (s_rest st))) /\ Forall (fun s => clz s <> cNULL /\ Q s) ss /\ linked ss /\
    (exists s t, ss = s :: t /\ clz s = clz cur /\ sctx s = sctx cur /\ sl s = sl cur).
Proof.
  induction n as [|n IH]; intros st cur al H L P B NN II M; [lia|]. cbn [scan_loop].
  destruct (step_spec st cur al H L (Z.le_trans _ _ _ (proj1 P) (proj2 P)) B)
    as [[-> EP]|(out & st' & cur' & al' & r & len & c & st1 & -> & RD & R1 & LN & TT & MU & SR & FT)]; cbn [lift rbind].
  - exists [cur]. split; [reflexivity|]. rewrite EP. cbn. split; [lia|]. split; [constructor; eauto|]. split; eauto.
    exists cur, []. auto.
  - destruct (PR st cur al r len c st1 out st' cur' al' II FT RD R1 LN) as (II' & NN' & RR).
    specialize (NN' NN). destruct RD as (H' & L' & RD).
    assert (SLR : sl cur' <= sr cur' /\ 0 <= sl cur').
    { destruct RD as [(_ & -> & _)|(_ & _ & (d & _ & ->) & _)]; cbn; lia. }
    destruct (IH st' cur' al' H' L') as (ss & -> & T & F & LK & HD); auto; [lia|lia|lia|]. cbn [rbind].
    rewrite TT, Z.add_assoc, <- SR.
    destruct RD as [(-> & -> & EC & _)|(-> & _ & (d & _ & EC) & _)].
    + exists ss. split; [reflexivity|]. split; [exact T|]. split; auto.
    + destruct (clz cur =? cNULL) eqn:EN; [apply Z.eqb_eq in EN; congruence|].
      exists (cur :: ss). split; [reflexivity|]. split; [|split; [|split]].
      * cbn [tiles]. split; auto. split; [lia|]. subst cur'. exact T.
      * constructor; eauto.
      * destruct HD as (s & t & -> & HC & HX & _). cbn [linked] in LK |- *. split; auto. apply RR; auto. discriminate.
      * exists cur, ss. auto.
Qed.
End Loop.

(* ---- the class cNULL does not occur, once a first character has been read ---- *)
Definition props_ok : Prop := forall r, 0 <= fst (props r) <= cPDI.

Lemma test_class_null r c : c <> cNULL -> test_class md upper r c <> cNULL.
Proof.
  intros H. unfold test_class. destruct (m_test md); auto. destruct (upper r); [discriminate|].
  destruct (r =? 62); [discriminate|]. destruct (r =? 60); [discriminate|]. destruct (r =? 61); [discriminate|]. auto.
Qed.

Lemma eff_null (PO : props_ok) r : eff r <> cNULL.
Proof.
  unfold eff. specialize (PO r). destruct (props r) as [c b]. cbn [fst] in PO. apply test_class_null.
  destruct (b =? 1); [discriminate|]. destruct (b =? 2); [discriminate|]. destruct (c =? cB); [discriminate|].
  unfold cNULL, cPDI in *. lia.
Qed.

Lemma read_null (PO : props_ok) st r len c st1 : from_text st r len c st1 \/ from_markup st r len c st1 ->
  test_class md upper r c <> cNULL.
Proof.
  intros [(_ & _ & ->)|(_ & _ & _ & _ & C)]; [apply eff_null; auto|].
  apply test_class_null. destruct C as [-> | [-> | [-> | ->]]]; discriminate.
Qed.

Lemma apply_null c cur : c <> cNULL -> (clz cur <> cNULL \/ c <> cNSM) -> applyRulesW1to3 c cur <> cNULL.
Proof.
  intros H1 H2. unfold applyRulesW1to3. destruct (Z.eqb_spec c cNSM).
  - destruct H2 as [H2|H2]; [|congruence].
    destruct (clz cur =? cLRI); [discriminate|]. destruct (clz cur =? cRLI); [discriminate|].
    destruct (clz cur =? cPDI); [discriminate|]. auto.
  - destruct (_ && _); [discriminate|]. destruct (c =? cAL); [discriminate|]. destruct (_ || _); [discriminate|]. auto.
Qed.

Lemma round_null (PO : props_ok) st cur al r len c st1 out st' cur' al' :
  from_text st r len c st1 \/ from_markup st r len c st1 ->
  round st cur al (test_class md upper r c) len out st' cur' al' -> clz cur <> cNULL -> clz cur' <> cNULL.
Proof.
  intros FT (_ & _ & [(_ & -> & _)|(_ & _ & (d & _ & ->) & _)]) N; [exact N|].
  change (applyRulesW1to3 (test_class md upper r c) cur <> cNULL). apply apply_null; auto. eapply read_null; eauto.
Qed.

(* ---- the whole text ---- *)
Lemma new_ok input : hok (newScanner input).
Proof.
  unfold hok, newScanner. cbn [s_bd s_hs s_irs s_stack irs_find length]. split; [lia|]. split; [discriminate|]. split; [|split].
  - intros k i. destruct (0 =? k); intros X; [|discriminate]. injection X as <-. lia.
  - constructor; [discriminate|constructor].
  - intros [|[|i]] h j; cbn; intros X; try discriminate. injection X as <-. discriminate.
Qed.

Lemma mu_start input : mu (newScanner input) 0 = (3 * length input)%nat.
Proof. unfold mu. cbn -[Nat.mul]. lia. Qed.

Lemma scan_from_start (I : scst -> scrap -> Z -> Prop) (Q : scrap -> Prop) (R : scrap -> scrap -> Prop) input r len rest :
  preserved I R -> exported I Q -> props_ok ->
  I (newScanner input) (initialOuterScrap md false) (-1) ->
  lens_ok input -> total (para input) < 2 ^ 32 -> para input = (r, len) :: rest -> eff r <> cNSM ->
  exists ss, Scan md props upper markup input = Ok (ss ++ [stopper]) /\
    tiles 0 ss (total (para input)) /\ Forall (fun s => clz s <> cNULL /\ Q s) ss /\ linked R ss.
Proof.
  intros PR EX PO I0 L B EP EF. unfold Scan.
  set (st := newScanner input) in *. set (cur := initialOuterScrap md false) in *.
  assert (CN : clz cur = cNULL) by (unfold cur, initialOuterScrap; destruct (m_r2l md); reflexivity).
  assert (CL : sl cur = 0 /\ sr cur = 0) by (unfold cur, initialOuterScrap; destruct (m_r2l md); auto).
  destruct CL as [CL CR].
  replace (3 * length input + 4)%nat with (S (3 * length input + 3)) by lia. cbn [scan_loop].
  destruct (step_spec st cur (-1) (new_ok input)) as [[_ E]|(out & st' & cur' & al' & r' & len' & c & st1 & -> & RD & R1 & LN & TT & MU & SR & FT)];
    [exact L|lia|rewrite CR; exact B|change (s_rest st) with input in E; congruence|]. cbn [lift rbind].
  assert (FX : from_text st r' len' c st1).
  { destruct FT as [FT|(_ & _ & _ & X & _)]; auto. exfalso. rewrite CR in MU. unfold st in MU, X. rewrite mu_start in MU.
    unfold mu in MU. rewrite R1, X in MU. cbn [newScanner s_rest] in MU. lia. }
  destruct FX as (F1 & F2 & F3). change (s_rest st) with input in *. rewrite EP in F2. injection F2 as <- <- F2.
  pose proof (PR st cur (-1) r len c st1 out st' cur' al' I0 FT RD R1 LN) as (I1 & _ & _).
  destruct RD as (H' & L' & RD). rewrite F3 in RD.
  destruct RD as [(_ & _ & _ & X & _)|(EO & _ & (d & _ & EC) & _)]; [congruence|].
  assert (NN : clz cur' <> cNULL).
  { rewrite EC. change (applyRulesW1to3 (eff r) cur <> cNULL). apply apply_null; auto. apply eff_null; auto. }
  assert (SL : sl cur' = 0) by (rewrite EC; exact CR).
  destruct (scan_tiles I Q R PR EX (3 * length input + 3) st' cur' al') as (ss & -> & T & F & LK & _); auto; try lia.
  { rewrite CR in MU. unfold st in MU. rewrite mu_start in MU. lia. }
  exists ss. rewrite EO, CN. cbn [rbind app Z.eqb]. split; [reflexivity|]. split; [|split; auto].
  rewrite SL in T. replace (total (para input)) with (sr cur' + total (para (s_rest st'))) by lia. exact T.
Qed.

Lemma scan_text input r len rest : props_ok -> lens_ok input -> total (para input) < 2 ^ 32 ->
  para input = (r, len) :: rest -> eff r <> cNSM ->
  exists ss, Scan md props upper markup input = Ok (ss ++ [stopper]) /\
    tiles 0 ss (total (para input)) /\ Forall (fun s => clz s <> cNULL) ss.
Proof.
  intros PO L B E F.
  destruct (scan_from_start (fun _ _ _ => True) (fun _ => True) (fun _ _ => True) input r len rest) as (ss & A & T & FA & _); auto.
  - intros st cur al r0 len0 c st1 out st' cur' al' _ FT RD _ _. split; auto. split; auto. eapply round_null; eauto.
  - intros st cur al _ _. auto.
  - exists ss. split; auto. split; auto. eapply Forall_impl; [|exact FA]. intros s [X _]. exact X.
Qed.

(* ---- texts that begin with a non-spacing mark ---- *)
Lemma scan_null (PO : props_ok) : forall n st cur al,
  hok st -> lens_ok (s_rest st) -> 0 <= sr cur -> sr cur + total (para (s_rest st)) < 2 ^ 32 ->
  clz cur = cNULL -> (mu st (sr cur) < n)%nat ->
  exists ss, scan_loop md props upper markup n st cur al = Ok (ss ++ [stopper]) /\
    ((exists x, ss = [x] /\ clz x = cNULL) \/
     exists k, sr cur <= k /\ tiles k ss (sr cur + total (para (s_rest st))) /\ Forall (fun s => clz s <> cNULL) ss).
Proof.
  induction n as [|n IH]; intros st cur al H L P B CN M; [lia|]. cbn [scan_loop].
  destruct (step_spec st cur al H L P B)
    as [[-> EP]|(out & st' & cur' & al' & r & len & c & st1 & -> & RD & R1 & LN & TT & MU & SR & FT)]; cbn [lift rbind].
  - exists [cur]. split; [reflexivity|]. left. eauto.
  - pose proof RD as (H' & L' & [(_ & _ & _ & X & _)|(-> & _ & (d & _ & EC) & _)]); [congruence|].
    rewrite CN. cbn [Z.eqb cNULL Pos.eqb app].
    destruct (Z.eq_dec (clz cur') cNULL) as [N|N].
    + destruct (IH st' cur' al' H' L') as (ss & -> & A); [lia|lia|auto|lia|]. cbn [rbind]. exists ss. split; [reflexivity|].
      destruct A as [A|(k & K1 & K2 & K3)]; auto. right. exists k. split; [lia|]. split; auto.
      rewrite TT, Z.add_assoc, <- SR. exact K2.
    + destruct (scan_tiles (fun _ _ _ => True) (fun _ => True) (fun _ _ => True)) with (n := n) (st := st') (cur := cur') (al := al')
        as (ss & -> & T & F & _ & _); auto; try lia.
      * intros st0 cur0 al0 r0 len0 c0 st2 out st3 cur3 al3 _ FT0 RD0 _ _. split; auto. split; auto. eapply round_null; eauto.
      * intros ? ? ? _ _. auto.
      * rewrite EC. cbn. lia.
      * cbn [rbind]. exists ss. split; [reflexivity|]. right. exists (sr cur).
        split; [lia|]. split; [|eapply Forall_impl; [|exact F]; intros s [X _]; exact X].
        rewrite TT, Z.add_assoc, <- SR.
        replace (sl cur') with (sr cur) in T by (rewrite EC; reflexivity). exact T.
Qed.

Lemma scan_leading_mark input r len rest : props_ok -> lens_ok input -> total (para input) < 2 ^ 32 ->
  para input = (r, len) :: rest -> eff r = cNSM ->
  exists ss, Scan md props upper markup input = Ok (ss ++ [stopper]) /\
    ((exists x, ss = [x] /\ clz x = cNULL) \/
     exists k, len <= k /\ tiles k ss (total (para input)) /\ Forall (fun s => clz s <> cNULL) ss).
Proof.
  intros PO L B EP EF. unfold Scan.
  set (st := newScanner input) in *. set (cur := initialOuterScrap md false) in *.
  assert (CN : clz cur = cNULL) by (unfold cur, initialOuterScrap; destruct (m_r2l md); reflexivity).
  assert (CR : sr cur = 0) by (unfold cur, initialOuterScrap; destruct (m_r2l md); auto).
  replace (3 * length input + 4)%nat with (S (3 * length input + 3)) by lia. cbn [scan_loop].
  destruct (step_spec st cur (-1) (new_ok input)) as [[_ E]|(out & st' & cur' & al' & r' & len' & c & st1 & -> & RD & R1 & LN & TT & MU & SR & FT)];
    [exact L|lia|rewrite CR; exact B|change (s_rest st) with input in E; congruence|]. cbn [lift rbind].
  assert (FX : from_text st r' len' c st1).
  { destruct FT as [FT|(_ & _ & _ & X & _)]; auto. exfalso. rewrite CR in MU. unfold st in MU, X. rewrite mu_start in MU.
    unfold mu in MU. rewrite R1, X in MU. cbn [newScanner s_rest] in MU. lia. }
  destruct FX as (F1 & F2 & F3). change (s_rest st) with input in *. rewrite EP in F2. injection F2 as <- <- F2.
  destruct RD as (H' & L' & RD). rewrite F3 in RD.
  destruct RD as [(_ & _ & _ & X & _)|(EO & _ & (d & _ & EC) & _)]; [congruence|].
  assert (NN : clz cur' = cNULL).
  { rewrite EC. change (applyRulesW1to3 (eff r) cur = cNULL). unfold applyRulesW1to3. rewrite EF, CN. reflexivity. }
  destruct (scan_null PO (3 * length input + 3) st' cur' al') as (ss & -> & A); auto; try lia.
  { rewrite CR in MU. unfold st in MU. rewrite mu_start in MU. lia. }
  exists ss. rewrite EO, CN. split; [reflexivity|]. destruct A as [A|(k & K1 & K2 & K3)]; auto.
  right. exists k. split; [lia|]. split; auto.
  replace (total (para input)) with (sr cur' + total (para (s_rest st'))) by lia. exact K2.
Qed.

Lemma scan_empty input : lens_ok input -> para input = [] ->
  Scan md props upper markup input = Ok [initialOuterScrap md false; stopper].
Proof.
  intros L E. unfold Scan. replace (3 * length input + 4)%nat with (S (3 * length input + 3)) by lia. cbn [scan_loop].
  assert (CR : sr (initialOuterScrap md false) = 0) by (unfold initialOuterScrap; destruct (m_r2l md); auto).
  destruct (step_spec (newScanner input) (initialOuterScrap md false) (-1) (new_ok input))
    as [[-> _]|(out & st' & cur' & al' & r' & len' & c & st1 & _ & RD & R1 & LN & TT & MU & SR & FT)];
    [exact L|lia|rewrite CR; cbn; rewrite E; cbn; lia|reflexivity|]. exfalso.
  destruct FT as [(_ & F2 & _)|(_ & _ & _ & X & _)]; [cbn in F2; congruence|].
  rewrite CR, mu_start in MU. unfold mu in MU. rewrite R1, X in MU. cbn [newScanner s_rest] in MU. lia.
Qed.
End Props.
