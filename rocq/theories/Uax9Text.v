(* Uax9Text.v -- from the text to the scraps, and to the resolved classes. *)
From Coq Require Import List ZArith Lia Bool.
From Verif Require Import Base Scrap Brackets Trie Rules RuleProofs Reorder ReorderSpec ReorderProofs SplitProofs Scanner ScannerProofs Resolver ResolverProofs ResolverFlat ResolverText Uax9Spec Uax9Proofs Uax9Rewrite Uax9Resolve.
Import ListNotations.
Open Scope Z_scope.

(* ---- runs of equal classes ---- *)
Definition bracket_class (c : Z) : bool := (c =? cBRACKO) || (c =? cBRACKC).

Lemma runs_of_hd solo c n t : exists m u, runs_of solo ((c, n) :: t) = (c, m) :: u.
Proof. cbn [runs_of]. destruct (runs_of solo t) as [|[d m] u]; [eauto|]. destruct (_ && _); eauto. Qed.

Lemma runs_of_join solo c n m t : solo c = false -> runs_of solo ((c, n) :: (c, m) :: t) = runs_of solo ((c, n + m) :: t).
Proof.
  intros S. cbn [runs_of]. destruct (runs_of solo t) as [|[d k] u].
  - rewrite Z.eqb_refl, S. reflexivity.
  - rewrite S. cbn [negb]. rewrite andb_true_r. destruct (Z.eqb_spec c d) as [<-|N].
    + rewrite Z.eqb_refl. cbn [andb]. rewrite Z.add_assoc. reflexivity.
    + rewrite Z.eqb_refl. reflexivity.
Qed.

Lemma runs_of_new solo c n d m t : c <> d \/ solo c = true -> runs_of solo ((c, n) :: (d, m) :: t) = (c, n) :: runs_of solo ((d, m) :: t).
Proof.
  intros H. destruct (runs_of_hd solo d m t) as (k & u & E). change (runs_of solo ((c, n) :: (d, m) :: t)) with
    (match runs_of solo ((d, m) :: t) with
     | (d, m) :: u => if (c =? d) && negb (solo c) then (c, n + m) :: u else (c, n) :: (d, m) :: u
     | [] => [(c, n)]
     end). rewrite E. destruct H as [H|H].
  - apply Z.eqb_neq in H. rewrite H. reflexivity.
  - rewrite H, andb_false_r. reflexivity.
Qed.

(* The classes of the runs. *)
Fixpoint squash (cs : list Z) : list Z :=
  match cs with
  | [] => []
  | c :: t => match squash t with d :: u => if c =? d then d :: u else c :: d :: u | [] => [c] end
  end.
Lemma runs_squash solo : forall l, Forall (fun x => solo (fst x) = false) l -> map fst (runs_of solo l) = squash (map fst l).
Proof.
  induction 1 as [|[c n] t H _ IH]; [reflexivity|]. cbn [runs_of map fst squash]. rewrite <- IH. cbn [fst] in H.
  destruct (runs_of solo t) as [|[d m] u]; [reflexivity|]. cbn [map fst]. rewrite H, andb_true_r. destruct (Z.eqb_spec c d) as [->|_]; reflexivity.
Qed.

(* ---- the result of UAX#9 on runs and on characters ---- *)
Definition natp (x : Z * Z) : Z * nat := (fst x, Z.to_nat (snd x)).

Lemma ahead_squash e : forall cs, ahead e (squash cs) = ahead e cs.
Proof.
  induction cs as [|c t IH]; [reflexivity|]. cbn [squash]. destruct (squash t) as [|d u]; [cbn [ahead] in *; rewrite <- IH; reflexivity|].
  destruct (Z.eqb_spec c d) as [->|_]; [|cbn [ahead] in *; rewrite <- IH; reflexivity]. cbn [ahead] in *. rewrite <- IH.
  destruct ((d =? cL) || (d =? cEN)); [reflexivity|]. destruct (d =? cR); reflexivity.
Qed.
Lemma en_squash : forall cs, en_ahead (squash cs) = en_ahead cs.
Proof.
  induction cs as [|c t IH]; [reflexivity|]. cbn [squash]. destruct (squash t) as [|d u]; [cbn [en_ahead] in *; rewrite <- IH; reflexivity|].
  destruct (Z.eqb_spec c d) as [->|_]; [|cbn [en_ahead] in *; rewrite <- IH; reflexivity]. cbn [en_ahead] in *.
  destruct (d =? cET); auto.
Qed.

Lemma fcP_join e c n m t q p : fcP e q p ((c, n) :: (c, m) :: t) = fcP e q p ((c, (n + m)%nat) :: t).
Proof.
  cbn [fcP cls map fst]. fold (cls t).
  assert (N1 : number q c (c :: cls t) = number q c (cls t)).
  { unfold number. cbn [en_ahead]. destruct (Z.eqb_spec c cEN) as [->|_]; [reflexivity|]. cbn [orb]. destruct (c =? cET); reflexivity. }
  rewrite N1. destruct (number q c (cls t)) eqn:EN.
  - assert (N2 : number true c (cls t) = true).
    { unfold number in *. destruct (c =? cEN); [reflexivity|]. destruct (c =? cET); [reflexivity|discriminate EN]. }
    rewrite N2, app_assoc, repeat_app. reflexivity.
  - assert (N2 : number false c (cls t) = false).
    { unfold number in *. destruct (c =? cEN); [discriminate EN|]. destruct (c =? cET); [|reflexivity]. cbn in *. apply orb_false_iff in EN. tauto. }
    rewrite N2. destruct ((c =? cL) || (c =? cR)) eqn:ELR; [rewrite app_assoc, repeat_app; reflexivity|].
    assert (A : ahead e (c :: cls t) = ahead e (cls t)).
    { cbn [ahead]. apply orb_false_iff in ELR. destruct ELR as [E1 E2]. unfold number in EN. apply orb_false_iff in EN. destruct EN as [E3 _].
      rewrite E1, E2, E3. reflexivity. }
    rewrite A, app_assoc, repeat_app. reflexivity.
Qed.

Lemma fcP_runs e solo : forall l, Forall (fun x => solo (fst x) = false) l -> Forall (fun x => 0 <= snd x) l ->
  forall q p, fcP e q p (map natp (runs_of solo l)) = fcP e q p (map natp l).
Proof.
  induction l as [|[c n] t IH]; intros S L q p; [reflexivity|]. inversion S as [|? ? S1 S2]; subst. inversion L as [|? ? L1 L2]; subst. cbn [fst snd] in *.
  pose proof (runs_squash solo t S2) as SQ.
  assert (LR : Forall (fun x => 0 <= snd x) (runs_of solo t)).
  { clear - L2. induction L2 as [|[c n] t H _ IH]; [constructor|]. cbn [runs_of]. destruct IH as [|[d m] u H1 H2]; [repeat constructor; auto|].
    destruct (_ && _); repeat constructor; cbn in *; auto; lia. }
  assert (ST : forall q p, fcP e q p (map natp ((c, n) :: runs_of solo t)) = fcP e q p (map natp ((c, n) :: t))).
  { intros q' p'. cbn [map fcP natp fst snd].
    assert (C : cls (map natp t) = map fst t) by (unfold cls; rewrite map_map; reflexivity).
    assert (C' : cls (map natp (runs_of solo t)) = squash (map fst t)) by (unfold cls; rewrite map_map, <- SQ; reflexivity).
    rewrite C, C'. unfold number. rewrite en_squash, ahead_squash. rewrite !IH by auto. reflexivity. }
  rewrite <- ST. cbn [runs_of]. destruct (runs_of solo t) as [|[d m] u]; [reflexivity|]. rewrite S1. cbn [negb]. rewrite andb_true_r.
  destruct (Z.eqb_spec c d) as [->|_]; [|reflexivity]. inversion LR as [|? ? L3 _]; subst. cbn [snd] in L3.
  cbn [map]. unfold natp at 1 3 4. cbn [fst snd]. rewrite fcP_join, Z2Nat.inj_add by auto. reflexivity.
Qed.

(* ---- groups of neutrals ----
   The classes of the runs, after W1 and W3.  The rules of the code treat a group of neutrals as UAX#9
   does if it is one run; or if its last run consists of S, WS or ON characters (class NI); or if it gets
   the embedding direction anyway.  [g]: the run before is in the group. *)
Fixpoint tidy_runs (e : Z) (q : bool) (p : Z) (g : bool) (cs : list Z) : bool :=
  match cs with
  | [] => true
  | c :: t =>
      if number q c t then tidy_runs e true cL false t
      else if (c =? cL) || (c =? cR) then tidy_runs e false c false t
      else (negb g || in_group t || (c =? cNI) || negb (p =? ahead e t) || (p =? e)) && tidy_runs e false p true t
  end.
Definition tidy (e : Z) (cs : list Z) : bool := tidy_runs e false e false (squash (map norm (W1 e cs))).

(* ---- what the scanner sends ---- *)
Lemma W1_norm : forall cs p p', norm p = norm p' -> map norm (W1 p cs) = map norm (W1 p' cs).
Proof. induction cs as [|c t IH]; intros p p' H; [reflexivity|]. cbn [W1 map]. destruct (c =? cNSM); [rewrite H; f_equal; auto|reflexivity]. Qed.
Lemma norm_norm c : norm (norm c) = norm c.
Proof.
  unfold norm. destruct (Z.eqb_spec c cAL); [reflexivity|]. destruct ((c =? cS) || (c =? cWS) || (c =? cON)) eqn:E; [reflexivity|].
  rewrite E. destruct (Z.eqb_spec c cAL); [contradiction|reflexivity].
Qed.

Definition srun (s : scrap) : Z * Z := (clz s, sr s - sl s).

Section Text.
Context (md : mode) (props : Z -> Z * Z) (upper : Z -> bool).
Notation eff := (eff md props upper).
Notation para := (para md props).
Notation classes := (classes_of md props upper).

(* The characters with their classes after the rules W1 and W3, all neutrals being NI. *)
Definition chars (p : Z) (l : list (Z * Z)) : list (Z * Z) := combine (map norm (W1 p (classes l))) (map snd l).

Section Runs.
Context (rtl : bool).
Lemma runs_loop (PO : props_ok props) : forall n st cur al,
  hok st -> lens_ok (s_rest st) -> 0 <= sl cur <= sr cur -> sr cur + total (para (s_rest st)) < 2 ^ 32 ->
  clz cur <> cNULL -> SC md props upper rtl st cur al -> (mu st (sr cur) < n)%nat ->
  exists ss, scan_loop md props upper None n st cur al = Ok (ss ++ [stopper]) /\
    map srun ss = runs_of bracket_class (srun cur :: chars (clz cur) (para (s_rest st))).
Proof.
  induction n as [|n IH]; intros st cur al H L P B NN II M; [lia|]. cbn [scan_loop].
  destruct (step_spec md props upper None st cur al H L (Z.le_trans _ _ _ (proj1 P) (proj2 P)) B)
    as [[-> EP]|(out & st' & cur' & al' & r & len & c & st1 & -> & RD & R1 & LN & TT & MU & SR & FT)]; cbn [lift rbind].
  - exists [cur]. split; [reflexivity|]. rewrite EP. reflexivity.
  - destruct (SC_preserved md props upper rtl PO st cur al r len c st1 out st' cur' al' II FT RD R1 LN) as (II' & NN' & _).
    specialize (NN' NN). destruct RD as (H' & L' & RD).
    assert (SLR : sl cur' <= sr cur' /\ 0 <= sl cur').
    { destruct RD as [(_ & -> & _)|(_ & _ & (d & _ & ->) & _)]; cbn; lia. }
    destruct (IH st' cur' al' H' L') as (ss & -> & RS); auto; [lia|lia|lia|]. cbn [rbind].
    destruct FT as [(F1 & F2 & F3)|(X & _)]; [|congruence]. rewrite <- R1 in F2. rewrite F3 in RD.
    destruct II as (s & p & CA & CX & KI & ED & CC & IP & ST & NR & CL).
    rewrite F2 in CA. unfold classes_of in CA. cbn [map fst] in CA. apply calm_cons in CA.
    set (k := if eff r =? cNSM then p else eff r) in *. destruct CA as (C1 & C2 & _).
    assert (LC : applyRulesW1to3 (eff r) cur = norm k).
    { apply la_class; auto. intros E. assert (K1 : k = cEN) by (unfold k; rewrite E; reflexivity).
      specialize (C2 K1). destruct ST as [X|(_ & _ & X)]; [rewrite X in C2; discriminate|exact X]. }
    assert (CH : chars (clz cur) (para (s_rest st)) = (norm k, len) :: chars (norm k) (para (s_rest st'))).
    { rewrite F2. unfold chars, classes_of. cbn [map fst snd W1]. set (k' := if _ =? _ then clz cur else _).
      assert (NK : norm k' = norm k). { unfold k', k. destruct (_ =? _); [rewrite CC; apply norm_norm|reflexivity]. }
      cbn [map combine]. rewrite NK. f_equal. f_equal. apply W1_norm. rewrite norm_norm. exact NK. }
    rewrite CH. destruct RD as [(-> & -> & EC & _ & EB & _)|(-> & FI & (d & _ & EC) & _)].
    + exists ss. split; [reflexivity|]. rewrite RS. cbn [la_of clz] in EC. rewrite LC in EC. rewrite EC.
      unfold srun at 1 2. cbn [collapse clz sl sr la_of]. rewrite runs_of_join by exact EB. replace (sr cur + len - sl cur) with (sr cur - sl cur + len) by lia. reflexivity.
    + destruct (clz cur =? cNULL) eqn:EN; [apply Z.eqb_eq in EN; congruence|].
      assert (CK : srun cur' = (norm k, len)). { rewrite EC. unfold srun. cbn [inheritStrongTypes with_ctx clz sl sr la_of]. rewrite LC. f_equal. lia. }
      assert (CKc : clz cur' = norm k) by (injection CK; auto).
      exists (cur :: ss). split; [reflexivity|]. cbn [map]. rewrite RS, CK, CKc. unfold srun at 1 2. symmetry. apply runs_of_new.
      destruct FI as [X|[X|[X|X]]]; [congruence|left|right; exact X|].
      * cbn [la_of clz] in X. rewrite LC in X. exact X.
      * exfalso. change (is_isolate (clz cur) = true) in X. rewrite CC, norm_isolate in X. congruence.
Qed.

(* The scraps are the runs of the classes after W1 and W3. *)
Theorem scan_runs input r len rest : props_ok props -> lens_ok input -> total (para input) < 2 ^ 32 ->
  para input = (r, len) :: rest -> eff r <> cNSM -> (rtl = false -> m_r2l md = false) ->
  calm rtl cL cNULL (classes (para input)) = true ->
  exists ss, Scan md props upper None input = Ok (ss ++ [stopper]) /\
    map srun ss = runs_of bracket_class (chars cL (para input)).
Proof.
  intros PO L B EP EF LR CA. unfold Scan.
  set (st := newScanner input) in *. set (cur := initialOuterScrap md false) in *.
  assert (CN : clz cur = cNULL) by (unfold cur, initialOuterScrap; destruct (m_r2l md); reflexivity).
  assert (CL : sl cur = 0 /\ sr cur = 0) by (unfold cur, initialOuterScrap; destruct (m_r2l md); auto).
  destruct CL as [CL CR].
  assert (I0 : SC md props upper rtl st cur (-1)).
  { exists cL, cNULL. split; [exact CA|]. split; [reflexivity|]. unfold cur, initialOuterScrap, outer, after.
    destruct (m_r2l md) eqn:EM; cbn; (split; [auto|]; split; [auto|]; split; [auto|]; split; [auto|]).
    - split; [right; split; [lia|split; [auto|discriminate]]|]. split; [|auto]. intros X. discriminate (LR X).
    - split; [right; split; [lia|split; [auto|discriminate]]|]. split; [|auto]. intros X. split; auto. split; auto. split; [lia|discriminate]. }
  replace (3 * length input + 4)%nat with (S (3 * length input + 3)) by lia. cbn [scan_loop].
  destruct (step_spec md props upper None st cur (-1) (new_ok input)) as [[_ E]|(out & st' & cur' & al' & r' & len' & c & st1 & -> & RD & R1 & LN & TT & MU & SR & FT)];
    [exact L|lia|rewrite CR; exact B|change (s_rest st) with input in E; congruence|]. cbn [lift rbind].
  pose proof (SC_preserved md props upper rtl PO st cur (-1) r' len' c st1 out st' cur' al' I0 FT RD R1 LN) as (I1 & _ & _).
  destruct FT as [(F1 & F2 & F3)|(X & _)]; [|congruence].
  change (s_rest st) with input in *. rewrite EP in F2. injection F2 as <- <- F2.
  destruct RD as (H' & L' & RD). rewrite F3 in RD.
  destruct RD as [(_ & _ & _ & X & _)|(EO & _ & (d & DD & EC) & _)]; [congruence|].
  assert (DC : strong d <> cAL).
  { assert (D : d = sctx cur) by (destruct DD as [X|[_ []]]; auto). rewrite D. unfold cur, initialOuterScrap. destruct (m_r2l md); discriminate. }
  assert (LC : clz cur' = norm (eff r)).
  { rewrite EC. cbn [inheritStrongTypes with_ctx clz la_of]. unfold applyRulesW1to3, norm. destruct (Z.eqb_spec (eff r) cNSM) as [X|_]; [contradiction|].
    destruct (Z.eqb_spec (eff r) cEN) as [X|X]; [|reflexivity].
    assert (Y : strong (sctx cur) <> cAL) by (unfold cur, initialOuterScrap; destruct (m_r2l md); discriminate).
    apply Z.eqb_neq in Y. rewrite Y, X. reflexivity. }
  assert (NN : clz cur' <> cNULL).
  { rewrite EC. change (applyRulesW1to3 (eff r) cur <> cNULL). apply apply_null; auto. apply eff_null; auto. }
  assert (SL : sl cur' = 0) by (rewrite EC; exact CR).
  destruct (runs_loop PO (3 * length input + 3) st' cur' al') as (ss & -> & RS); auto; try lia.
  { rewrite CR in MU. unfold st in MU. rewrite mu_start in MU. lia. }
  exists ss. rewrite EO, CN. cbn [rbind app Z.eqb]. split; [reflexivity|]. rewrite RS, EP. unfold srun. rewrite SL, SR, CR, LC, R1, <- F2.
  unfold chars, classes_of. cbn [map fst snd W1]. apply Z.eqb_neq in EF. rewrite EF. cbn [map combine]. f_equal. f_equal; [f_equal; lia|].
  f_equal. apply W1_norm. apply norm_norm.
Qed.
End Runs.

(* ---- the resolved classes ---- *)
Notation e := (outer md).

Lemma calm_weaker : forall cs prev, calm true cR prev cs = true -> calm true cL prev cs = true.
Proof.
  induction cs as [|c t IH]; intros prev H; [reflexivity|]. cbn [calm] in *. set (k := if c =? cNSM then prev else c) in *.
  apply andb_true_iff in H. destruct H as [H H4]. apply andb_true_iff in H. destruct H as [H H3].
  apply andb_true_iff in H. destruct H as [H1 H2]. rewrite H1, H3. change (cL =? cL) with true. cbn [negb]. rewrite andb_false_r. cbn [negb andb].
  unfold strong_after in *. change (cR =? cAL) with false in H4. change (cL =? cAL) with false. cbn [orb] in *.
  destruct (k =? cAL); [exact H4|]. destruct (k =? cL); [exact H4|]. destruct (k =? cR); [exact H4|]. apply IH, H4.
Qed.

Lemma tidy_chk cs : tidy_runs e false e false cs = true -> chk e false e false 1 cs = true.
Proof.
  assert (Z0 : forall cs q p g, tidy_runs e q p g cs = chk e q p g 0 cs).
  { clear cs. induction cs as [|c t IH]; intros q p g; [reflexivity|]. cbn [tidy_runs chk pred Nat.eqb andb]. rewrite !IH. reflexivity. }
  rewrite Z0. destruct cs as [|c t]; [auto|]. cbn [chk pred]. auto.
Qed.

Theorem resolve_uax9 input r len rest n : props_ok props -> lens_ok input -> total (para input) < 2 ^ 32 ->
  para input = (r, len) :: rest -> eff r <> cNSM ->
  Forall (fun c => In c (cNSM :: raw9)) (classes (para input)) ->
  calm true e cNULL (classes (para input)) = true -> tidy e (classes (para input)) = true ->
  (rounds (S (length input)) <= n)%nat ->
  exists lv, ResolveParagraph n md props upper None input = Ok (lv, []) /\ resolved md (total (para input)) lv /\
    painted (lv_scraps lv) = spread (uax9 e (classes (para input))) (map snd (para input)) /\
    exists w, lv_scraps lv = initial md :: w ++ [mks cPDI (total (para input)) (total (para input)) dc0 []] /\
      Forall (fun s => clz s = cL \/ clz s = cR) w /\ linked differ w.
Proof.
  intros PO L B EP EF CS CA TI FU. unfold ResolveParagraph. rewrite prepared. cbn [rbind].
  assert (CL : calm true cL cNULL (classes (para input)) = true).
  { destruct (e_lr md) as [X|X]; rewrite X in CA; auto. apply calm_weaker, CA. }
  destruct (scan_calm md props upper true input r len rest) as (ss & E & G & NN & LE); auto; [discriminate|]. rewrite E. cbn [rbind].
  destruct (scan_runs true input r len rest) as (ss' & E' & RS); auto; [discriminate|].
  rewrite E in E'. injection E' as E'. apply app_inj_tail in E'. destruct E' as [<- _].
  destruct (ScanFinal_ok md props upper None input L B) as (st & -> & TM). cbn [rbind].
  set (cs := classes (para input)) in *. set (lens := map snd (para input)).
  assert (HD : hd cL cs <> cNSM) by (unfold cs; rewrite EP; exact EF).
  assert (FCH : chars cL (para input) = chars e (para input)).
  { unfold chars. fold cs. f_equal. destruct cs as [|c t]; [reflexivity|]. cbn [hd] in HD. cbn [W1 map]. apply Z.eqb_neq in HD. rewrite HD. reflexivity. }
  rewrite FCH in RS.
  assert (LEN : length (map norm (W1 e cs)) = length lens).
  { rewrite map_length. unfold lens, cs, classes_of. assert (X : forall l p, length (W1 p l) = length l) by (induction l; intros; cbn; auto). rewrite X, !map_length. reflexivity. }
  assert (C9 : Forall (fun c => In c run9) (map norm (W1 e cs))).
  { apply Forall_map. assert (X : Forall (fun c => In c raw9) (W1 e cs)).
    { apply W1_classes; auto. destruct (e_lr md) as [-> | ->]; cbn; auto. } eapply Forall_impl; [|exact X]. intros c I. cases9 I; cbn; auto 9. }
  assert (FST : map fst (chars e (para input)) = map norm (W1 e cs)).
  { unfold chars. fold cs lens. clear - LEN. revert LEN. generalize lens. induction (map norm (W1 e cs)) as [|c t IH]; intros l X; destruct l; try discriminate X; [reflexivity|].
    cbn in *. rewrite IH; auto. }
  assert (SND : map snd (chars e (para input)) = lens).
  { unfold chars. fold cs lens. clear - LEN. revert LEN. generalize lens. induction (map norm (W1 e cs)) as [|c t IH]; intros l X; destruct l; try discriminate X; [reflexivity|].
    cbn in *. rewrite IH; auto. }
  assert (NB : Forall (fun x => bracket_class (fst x) = false) (chars e (para input))).
  { rewrite <- FST in C9. rewrite Forall_map in C9. eapply Forall_impl; [|exact C9]. intros x I. cbn [run9 In] in I.
    repeat (destruct I as [I|I]; [rewrite <- I; reflexivity|]). contradiction I. }
  assert (LO : Forall (fun x => 0 <= snd x) (chars e (para input))).
  { apply Forall_map. rewrite SND. unfold lens. apply Forall_map. apply para_lens, L. }
  set (target := spread (uax9 e cs) lens).
  assert (VS : map view ss = map natp (runs_of bracket_class (chars e (para input)))) by (rewrite <- RS, map_map; reflexivity).
  assert (CZ : map clz ss = squash (map norm (W1 e cs))).
  { rewrite <- FST, <- (runs_squash bracket_class) by auto. rewrite <- RS, map_map. reflexivity. }
  assert (TG : fcP e false e (map view ss) = target).
  { rewrite VS, fcP_runs by auto. rewrite fcP_fc. unfold target, spread.
    replace (cls (map natp (chars e (para input)))) with (map norm (W1 e cs)) by (unfold cls; rewrite map_map; rewrite <- FST; reflexivity).
    rewrite uax9_fc; auto; [|apply e_lr]. rewrite map_map. replace (map (fun x => snd (natp x)) (chars e (para input))) with (map Z.to_nat lens)
      by (rewrite <- SND, map_map; reflexivity).
    generalize (fc e false e (map norm (W1 e cs))). generalize lens. clear. intros l k. revert k. induction l as [|n l IH]; intros [|c k]; try reflexivity.
    cbn [map combine flat_map fst snd]. rewrite IH. reflexivity. }
  destruct (resolve_flat_more md (total (para input)) true findBracket changeBracket (SI true) (find_ok true) (change_ok true)
    (Y1 md target) (Y2 md target)) with (ss := ss) (stp := stopper) (extra := @nil scrap) (b := st) (n := n) as (lv & E1 & R1 & w & E2 & Y); auto.
  - intros. eapply Y1_rw; eauto.
  - intros. eapply Y1_step; eauto.
  - intros. eapply Y12; eauto.
  - intros. eapply Y2_meld; eauto.
  - intros. eapply Y2_N2; eauto.
  - intros. eapply Y2_step; eauto.
  - intros. eapply Y2_set; eauto.
  - split; [|split; [|exact TG]].
    + cbn [app]. apply (proj1 (Forall_map clz (fun c => In c run9) ss)). rewrite CZ. assert (X : forall l, Forall (fun c => In c run9) l -> Forall (fun c => In c run9) (squash l)).
      { clear. induction 1 as [|c t H _ IH]; [constructor|]. cbn [squash]. destruct (squash t); [auto|]. destruct (_ =? _); auto. }
      apply X, C9.
    + cbn [app length]. rewrite CZ. apply tidy_chk. exact TI.
  - discriminate.
  - apply tame_SI, TM.
  - assert ((rounds (length ss) <= rounds (S (length input)))%nat); [|lia]. unfold rounds. nia.
  - exists lv. split; auto. split; auto. rewrite E2. destruct (Y2_end md target w Y) as (P & w' & -> & P2 & P3).
    split; [|exists w'; auto]. unfold painted. rewrite flat_map_app.
    fold (painted (initial md :: w')). rewrite P. cbn. rewrite Z.sub_diag. cbn. apply app_nil_r.
Qed.

(* ---- the runs ---- *)
Lemma rev_blocks_single {A} (f : A -> bool) : forall l, (forall a x y b, l = a ++ x :: y :: b -> f x && f y = false) -> rev_blocks f [] l = l.
Proof.
  induction l as [|x t IH]; intros H; [reflexivity|].
  assert (HT : forall a x0 y b, t = a ++ x0 :: y :: b -> f x0 && f y = false) by (intros a x0 y b ->; apply (H (x :: a) x0 y b); reflexivity).
  specialize (IH HT). cbn [rev_blocks]. destruct (f x) eqn:FX; [|rewrite IH; reflexivity].
  destruct t as [|y t]; [reflexivity|]. specialize (H [] x y t eq_refl). rewrite FX in H. cbn [andb] in H.
  cbn [rev_blocks] in IH |- *. rewrite H in *. cbn [app] in *. rewrite IH. reflexivity.
Qed.

Lemma attributed_spread {B} (f : scrap -> B) : forall ss, attributed f ss = combine (positions ss) (flat_map (fun s => repeat (f s) (Z.to_nat (sr s - sl s))) ss).
Proof.
  induction ss as [|s t IH]; [reflexivity|]. cbn [attributed positions flat_map]. fold (attributed f t) (positions t). rewrite IH.
  unfold zrange. set (n := Z.to_nat (sr s - sl s)). clearbody n. generalize 0%nat. induction n as [|n IHn]; intros k; [reflexivity|].
  cbn [seq map repeat app combine]. f_equal. apply IHn.
Qed.

Lemma runs_resolved tot lv w : tot < 2 ^ 32 -> resolved md tot lv ->
  lv_scraps lv = initial md :: w ++ [mks cPDI tot tot dc0 []] -> Forall (fun s => clz s = cL \/ clz s = cR) w -> linked differ w ->
  exists runs, Reorder lv = Some runs /\ Forall run_ok runs /\ alternating None runs /\
    flat_map run_view runs = combine (zrange 0 tot) (map (fun c => c =? cR) (painted (lv_scraps lv))).
Proof.
  intros B R EW FL LD. pose proof R as (EM & (body & EB & FB) & T & FLT).
  assert (OK : scraps_ok (lv_scraps lv)).
  { apply (tiles_proper _ 0 tot); auto; [lia|]. rewrite EB. constructor; [unfold initial, initialOuterScrap; destruct (m_r2l md); discriminate|].
    apply Forall_app. split; [|constructor; [discriminate|constructor]]. eapply Forall_impl; [|exact FB].
    intros s ((_ & X) & _). unfold cMAX in X. unfold cNULL. lia. }
  destruct (Reorder_flat lv FLT OK) as (runs & E1 & E2 & E3 & E4). exists runs. split; auto. split; auto. split; auto.
  cbv zeta in E4. rewrite E4, <- (tiles_positions _ _ _ T). clear E1 E2 E3 E4.
  assert (VIS : rev_blocks (opp (lv_emb lv)) [] (lv_scraps lv) = lv_scraps lv).
  { apply rev_blocks_single. intros a x y b X. rewrite EW in X. rewrite EM.
    assert (OL : forall s, opp (if m_r2l md then R2L else L2R) s = true -> clz s = cL \/ clz s = cR -> clz s = if m_r2l md then cL else cR).
    { intros s O [S|S]; unfold opp, level in O; rewrite S in O; destruct (m_r2l md); auto; discriminate O. }
    assert (O1 : opp (if m_r2l md then R2L else L2R) (initial md) = false) by (unfold initial, initialOuterScrap; destruct (m_r2l md); reflexivity).
    assert (O2 : forall t, opp (if m_r2l md then R2L else L2R) (mks cPDI t t dc0 []) = false) by (intros t; destruct (m_r2l md); reflexivity).
    destruct a as [|a0 a]; cbn [app] in X; injection X as <- X; [rewrite O1; reflexivity|].
    destruct b as [|b0 b].
    - assert (Y : w ++ [mks cPDI tot tot dc0 []] = (a ++ [x]) ++ [y]) by (rewrite <- app_assoc; exact X).
      apply app_inj_tail in Y. destruct Y as [_ <-]. rewrite O2. apply andb_false_r.
    - destruct (exists_last (l := b0 :: b)) as (b' & z & EZ); [discriminate|]. rewrite EZ in X.
      assert (Y : w ++ [mks cPDI tot tot dc0 []] = (a ++ x :: y :: b') ++ [z]) by (rewrite <- app_assoc; exact X).
      apply app_inj_tail in Y. destruct Y as [-> _].
      apply Forall_app in FL. destruct FL as [_ FL]. inversion FL as [|? ? FX FL']; subst. inversion FL' as [|? ? FY _]; subst.
      apply linked_mid in LD.
      destruct (opp (if m_r2l md then R2L else L2R) x) eqn:OX; [|reflexivity]. destruct (opp (if m_r2l md then R2L else L2R) y) eqn:OY; [|reflexivity].
      apply OL in OX; auto. apply OL in OY; auto. elim LD. congruence. }
  rewrite VIS, attributed_spread. f_equal. generalize (outer_dir (lv_scraps lv) (lv_emb lv)). intros od. unfold painted. rewrite EW. cbn [flat_map].
  replace (sr (initial md) - sl (initial md)) with 0 by (unfold initial, initialOuterScrap; destruct (m_r2l md); reflexivity).
  cbn [Z.to_nat repeat app]. rewrite !flat_map_app. cbn [flat_map sl sr]. rewrite Z.sub_diag. cbn [Z.to_nat repeat app]. rewrite !app_nil_r.
  clear - FL. induction FL as [|s t S _ IH]; [reflexivity|]. cbn [flat_map]. rewrite map_app, IH. f_equal.
  assert (D : forall d, dirFromClass s d = (clz s =? cR)) by (intros d; unfold dirFromClass; destruct S as [-> | ->]; reflexivity).
  rewrite D. clear. induction (Z.to_nat (sr s - sl s)); [reflexivity|]. cbn. f_equal. auto.
Qed.

Theorem runs_uax9 input r len rest n : props_ok props -> lens_ok input -> total (para input) < 2 ^ 32 ->
  para input = (r, len) :: rest -> eff r <> cNSM ->
  Forall (fun c => In c (cNSM :: raw9)) (classes (para input)) ->
  calm true e cNULL (classes (para input)) = true -> tidy e (classes (para input)) = true ->
  (rounds (S (length input)) <= n)%nat ->
  exists lv runs, ResolveParagraph n md props upper None input = Ok (lv, []) /\ Reorder lv = Some runs /\
    Forall run_ok runs /\ alternating None runs /\
    flat_map run_view runs = combine (zrange 0 (total (para input)))
      (map (fun c => c =? cR) (spread (uax9 e (classes (para input))) (map snd (para input)))).
Proof.
  intros PO L B EP EF CS CA TI FU.
  destruct (resolve_uax9 input r len rest n PO L B EP EF CS CA TI FU) as (lv & E & R & P & w & EW & FL & LD).
  exists lv. destruct (runs_resolved (total (para input)) lv w B R EW FL LD) as (runs & A1 & A2 & A3 & A4). exists runs. rewrite P in A4. auto.
Qed.
End Text.
