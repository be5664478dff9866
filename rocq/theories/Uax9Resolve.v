(* Uax9Resolve.v -- the two passes of the resolver keep the result of UAX#9. *)
From Coq Require Import List ZArith Lia Bool.
From Verif Require Import Base Scrap Brackets Trie Rules RuleProofs Reorder ReorderSpec ReorderProofs SplitProofs Scanner ScannerProofs Resolver ResolverProofs ResolverFlat ResolverText Uax9Spec Uax9Proofs Uax9Rewrite.
Import ListNotations.
Open Scope Z_scope.

Definition view (s : scrap) : Z * nat := (clz s, Z.to_nat (sr s - sl s)).
Definition slen (s : scrap) : nat := Z.to_nat (sr s - sl s).

Lemma cls_view l : cls (map view l) = map clz l.
Proof. unfold cls. rewrite map_map. reflexivity. Qed.

Lemma tiles_sum : forall m lo hi, tiles lo m hi -> list_sum (map slen m) = Z.to_nat (hi - lo).
Proof.
  induction m as [|s m IH]; intros lo hi T.
  - cbn in T. subst hi. cbn. rewrite Z.sub_diag. reflexivity.
  - destruct T as (A & B & T). pose proof (tiles_le _ _ _ T). cbn [map list_sum fold_right]. change (fold_right Nat.add 0%nat (map slen m)) with (list_sum (map slen m)).
    rewrite (IH _ _ T). unfold slen. lia.
Qed.

Lemma view_merge c a m b lo hi : tiles lo (a ++ m ++ b) hi -> m <> [] -> view (merge c m) = (c, list_sum (map slen m)).
Proof.
  intros T NM. apply tiles_app in T. destruct T as (k & _ & T). apply tiles_app in T. destruct T as (j & T & _).
  rewrite (tiles_sum _ _ _ T). unfold view, merge. cbn [clz sl sr]. f_equal. f_equal. f_equal.
  - destruct (exists_last NM) as (m' & y & ->). rewrite last_last. apply tiles_app in T. destruct T as (i & _ & T). cbn in T. tauto.
  - destruct m; [congruence|]. cbn in T |- *. tauto.
Qed.

Section Res.
Context (md : mode) (tot : Z) (target : list Z).
Notation e := (outer md).
Lemma e_lr : e = cL \/ e = cR.
Proof. unfold outer. destruct (m_r2l md); auto. Qed.

(* ---- pass 1 ---- *)
Definition Y1 (pre rest : list scrap) : Prop :=
  Forall (fun s => In (clz s) run9) (pre ++ rest) /\
  chk e false e false (S (length pre)) (map clz (pre ++ rest)) = true /\
  fcP e false e (map view (pre ++ rest)) = target.

Lemma done_of s : In (clz s) run9 -> weak (clz s) = false -> In (clz s) done9.
Proof.
  intros I W. cbn in I. repeat (destruct I as [E|I]; [rewrite <- E in W |- *; try discriminate W; cbn; auto|]). contradiction I.
Qed.
Lemma done_all pre : Forall (fun s => In (clz s) run9) pre -> Forall (fun s => weak (clz s) = false) pre -> Forall (fun s => In (clz s) done9) pre.
Proof. intros A B. rewrite Forall_forall in *. intros s I. apply done_of; auto. Qed.

Lemma sum1 s : list_sum (map slen [s]) = slen s.
Proof. cbn. lia. Qed.
Lemma sum2 s t : list_sum (map slen [s; t]) = (slen s + slen t)%nat.
Proof. cbn. lia. Qed.
Lemma sum3 s t u : list_sum (map slen [s; t; u]) = (slen s + slen t + slen u)%nat.
Proof. cbn. lia. Qed.
Lemma view_of s c : clz s = c -> view s = (c, slen s).
Proof. intros <-. reflexivity. Qed.

Lemma Y1_rw a m b r : G1 md tot true (a ++ m ++ b) -> Y1 a (m ++ b) -> In r stored -> pass r = 1 -> map clz m = lhs r ->
  Forall (fun s => weak (clz s) = false) a -> (lhsLen r = 1%nat -> no_long (m ++ b)) ->
  Y1 (firstn (length a - back r) a) (skipn (length a - back r) a ++ merge (target1 r) m :: b).
Proof.
  intros (_ & LE & T & _) (F & C & V) I P M W NL.
  assert (NM : m <> []) by (destruct m; [destruct r; discriminate M|discriminate]).
  pose proof (view_merge (target1 r) a m b _ _ T NM) as VM.
  apply Forall_app in F. destruct F as [FA F]. apply Forall_app in F. destruct F as [FM FB].
  pose proof (done_all a FA W) as DA.
  assert (RUN : In (target1 r) run9).
  { destruct r; try discriminate P; cbn; auto 8. cbn [lhs] in M. inv_map. exfalso. inversion FM as [|? ? X _]; subst. rewrite H in X.
    cbn in X. decompose [or] X; try discriminate; contradiction. }
  assert (MER : In (clz (merge (target1 r) m)) run9) by exact RUN.
  unfold Y1. rewrite app_assoc, firstn_skipn. split; [apply Forall_app; split; auto|].
  rewrite firstn_length. replace (Nat.min (length a - back r) (length a)) with (length a - back r)%nat by lia.
  (* the general case *)
  assert (GEN : forall k, step_ok e k (map view (m ++ b)) (map view (merge (target1 r) m :: b)) ->
    (S (length a - back r) <= length a + k)%nat ->
    chk e false e false (S (length a - back r)) (map clz (a ++ merge (target1 r) m :: b)) = true /\
    fcP e false e (map view (a ++ merge (target1 r) m :: b)) = target).
  { intros k [S1 S2 S3 S4] K. rewrite !cls_view in S2, S3, S4. split.
    - apply (chk_mono e _ _ _ _ (length a + k)%nat); auto. rewrite !map_app. rewrite <- (map_length clz a).
      apply (chk_cong e (map clz a) (map clz (m ++ b)) (map clz (merge (target1 r) m :: b)) 1 k); auto.
      + apply Forall_map. exact DA.
      + rewrite map_length, <- map_app. replace (length a + 1)%nat with (S (length a)) by lia. exact C.
    - rewrite <- V, !map_app. symmetry. apply fcP_cong; auto.
      + apply Forall_map. exact DA.
      + rewrite <- map_app, !cls_view. exact S2.
      + rewrite <- map_app. exact S1. }
  assert (NL1 : lhsLen r = 1%nat -> forall d t, b = d :: t -> (clz d = cEN -> r <> W6_1) /\ (clz d = cET -> r <> Rules.W7)).
  { intros L d t ->. specialize (NL L). split; intros D ->; cbn [lhs] in M; inv_map.
    - apply (NL W5_1 [s; d] t); cbn; auto 8; congruence.
    - apply (NL W5_2 [s; d] t); cbn; auto 8; congruence. }
  destruct r; try discriminate P; cbn [lhs] in M; inv_map; cbn [app map] in GEN, C, V |- *; rewrite VM, ?sum1, ?sum2, ?sum3 in GEN;
    repeat match goal with H : clz ?s = _ |- _ => rewrite (view_of s _ H) in GEN; revert H end; intros; cbn [target1 back] in *.
  - apply (GEN 1%nat); [apply step_W4; auto|lia].
  - apply (GEN 1%nat); [apply step_W4; auto|lia].
  - exfalso. cbn in RUN. decompose [or] RUN; try discriminate; contradiction.
  - apply (GEN 1%nat); [apply step_W5_1|lia].
  - apply (GEN 1%nat); [apply step_W5_2|lia].
  - apply (GEN 1%nat); [|lia]. apply step_W6_1. rewrite cls_view. destruct b as [|d t]; [reflexivity|]. destruct (NL1 eq_refl d t eq_refl) as [X _].
    cbn [map en_ahead]. destruct (Z.eqb_spec (clz d) cEN) as [E|_]; [elim (X E eq_refl)|].
    destruct (Z.eqb_spec (clz d) cET) as [E|_]; [|reflexivity]. cbn [app] in LE. apply linked_mid in LE. destruct LE as [_ LE]. elim LE. auto.
  - apply (GEN 1%nat); [apply step_W6; auto|lia].
  - apply (GEN 1%nat); [apply step_W6; auto|lia].
  - destruct a as [|x a].
    + split; [|rewrite <- V].
      * cbn [app map length] in C |- *. rewrite H, H0 in C.
        clear - C. cbn [length Nat.sub]. cbn [merge clz]. unfold merge. cbn [clz].
        cbn in C |- *. apply andb_true_iff in C. destruct C as [_ C]. exact C.
      * cbn [app map]. rewrite VM, sum2, (view_of _ _ H), (view_of _ _ H0). symmetry. apply (so_fc _ _ _ _ (step_W6x e _ _ _)).
    + apply (GEN 0%nat); [apply step_W6x|cbn [length]; lia].
  - apply (GEN 1%nat); [|lia]. apply step_W7. rewrite cls_view. destruct b as [|d t]; [discriminate|]. destruct (NL1 eq_refl d t eq_refl) as [_ X].
    cbn [map hd]. intros E. elim (X E eq_refl).
Qed.

Lemma Y1_step a s b : G1 md tot true (a ++ s :: b) -> Y1 a (s :: b) -> weak (clz s) = false ->
  Forall (fun s => weak (clz s) = false) a -> no_long (s :: b) -> Y1 (a ++ [s]) b.
Proof.
  intros _ (F & C & V) W WA NL. unfold Y1. rewrite <- app_assoc. cbn [app]. split; auto. split; auto.
  apply Forall_app in F. destruct F as [FA F]. inversion F as [|? ? FS FB]; subst.
  rewrite app_length. cbn [length]. replace (S (length a + 1)) with (length a + 2)%nat by lia.
  rewrite map_app in *. cbn [map] in *. rewrite <- (map_length clz a).
  apply chk_pass.
  - apply Forall_map. apply done_all; auto.
  - apply done_of; auto.
  - intros E. destruct b as [|d t]; [discriminate|]. cbn [map hd]. intros D.
    apply (NL W6x [s; d] t); cbn; auto 12; congruence.
  - rewrite map_length. replace (length a + 1)%nat with (S (length a)) by lia. exact C.
Qed.

(* ---- pass 2 ---- *)
Definition F2 (w : list scrap) : Prop :=
  Forall (fun s => In (clz s) done9) w /\ nn e e (map clz w) /\ fcP e false e (map view w) = target.
Definition differ (a b : scrap) : Prop := clz a <> clz b.
Definition Y2 (pre rest : list scrap) : Prop :=
  (pre = [] /\ exists w, rest = initial md :: w /\ F2 w) \/
  (exists pre0, pre = initial md :: pre0 /\ F2 (pre0 ++ rest) /\ Forall (fun s => In (clz s) lr9) pre0 /\ linked differ pre0 /\
     forall u x, pre0 = u ++ [x] -> no_meld (x :: rest)).

Lemma Y12 w : G1 md tot true w -> Y1 w [] -> Forall (fun s => weak (clz s) = false) w -> Y2 [] (initial md :: w).
Proof.
  intros _ (F & C & V) W. rewrite app_nil_r in *. left. split; auto. exists w. split; auto. split; [apply done_all; auto|]. split; auto.
  apply (chk_nn e _ _ false (S (length w))); auto; [|rewrite map_length; lia]. apply Forall_map. apply done_all; auto.
Qed.

Lemma initial_not c : In c done9 -> clz (initial md) <> c.
Proof. unfold initial, initialOuterScrap. intros I. cbn in I. destruct (m_r2l md); cbn; decompose [or] I; try discriminate; subst; try discriminate; contradiction. Qed.

Lemma lhs_meld r : melds r -> exists c, In c lr9 /\ target2 r = c /\ (lhs r = [c; c] \/ lhs r = [c; cNI; c]).
Proof. intros [-> | [-> | [-> | ->]]]; [exists cL|exists cR|exists cL|exists cR]; cbn; auto 6. Qed.

Lemma Y2_meld a m b r : G2 md tot true (a ++ m ++ b) -> Y2 a (m ++ b) -> melds r -> map clz m = lhs r ->
  Y2 a (merge (target2 r) m :: b).
Proof.
  intros (_ & _ & T & _) Y R M. destruct (lhs_meld r R) as (c & LC & TC & LH).
  assert (NM : m <> []) by (destruct m; [destruct LH as [X|X]; rewrite X in M; discriminate M|discriminate]).
  assert (HM : clz (hd scrap0 m) = c) by (destruct LH as [X|X]; rewrite X in M; inv_map; auto).
  destruct Y as [(-> & w & E & _)|(pre0 & -> & (F & N & V) & FL & LD & Q)].
  { exfalso. destruct m as [|h m]; [congruence|]. injection E as -> _. cbn [hd] in HM. apply (initial_not c); auto. apply lr_done. auto. }
  right. exists pre0. split; auto.
  assert (T' : tiles (sr (initial md)) (pre0 ++ m ++ b) tot) by (cbn [app tiles] in T; tauto).
  pose proof (view_merge c pre0 m b _ _ T' NM) as VM. rewrite TC in *.
  split; [|split; [|split; [exact LD|]]]; auto.
  - split; [|split].
    + apply Forall_app in F. destruct F as [F1 F]. apply Forall_app in F. destruct F as [_ F]. apply Forall_app. split; auto. constructor; auto.
      cbn. apply lr_done. auto.
    + rewrite map_app in *. revert N. apply nn_cong2; [apply Forall_map; exact FL|]. intros p' _ _. rewrite map_app. cbn [map].
      destruct LH as [X|X]; rewrite X in M; rewrite M; cbn [merge clz]; unfold merge; cbn [clz]; [apply nn_same|apply nn_N1]; exact LC.
    + rewrite <- V, !map_app. symmetry. apply fcP_cong2; [apply Forall_map; exact FL|]. intros p' _ _. cbn [map]. rewrite VM.
      destruct LH as [X|X]; rewrite X in M; inv_map; rewrite ?sum2, ?sum3; cbn [map app]; rewrite (view_of _ _ H), (view_of _ _ H0), ?(view_of _ _ H1); [apply fcP_same|apply fcP_N1]; exact LC.
  - intros u x -> r' m' v R' EM' ML'. apply (Q u x eq_refl r' (firstn (length m') (x :: m ++ b)) (skipn (length m') (x :: m ++ b)) R').
    + symmetry. apply firstn_skipn.
    + destruct (lhs_meld r' R') as (c' & LC' & _ & LH'). destruct m as [|h m]; [congruence|]. cbn [hd] in HM.
      destruct LH' as [X|X]; rewrite X in *; inv_map; injection EM' as <- EM' _.
      * subst. cbn in *. congruence.
      * exfalso. subst. cbn in *. clear - LC H0. destruct LC as [X|[X|[]]]; rewrite <- X in H0; discriminate H0.
Qed.

Lemma Y2_N2 a s b : G2 md tot true (a ++ s :: b) -> Y2 a (s :: b) -> clz s = cNI -> K true (se s) ->
  Y2 (firstn (length a - 1) a) (skipn (length a - 1) a ++ with_clz s (se s) :: b).
Proof.
  intros (_ & FB & T & _) Y SN _.
  assert (SE : se s = e).
  { rewrite Forall_forall in FB. destruct (FB s) as (_ & _ & _ & X & _); [apply in_or_app; right; left; auto|].
    unfold se. rewrite X. unfold outer. destruct (m_r2l md); reflexivity. }
  rewrite SE. destruct Y as [(-> & w & E & _)|(pre0 & -> & (F & N & V) & FL & LD & Q)].
  { exfalso. injection E as E _. subst s. apply (initial_not cNI); cbn; auto. }
  assert (LE : In e lr9) by (destruct e_lr as [-> | ->]; cbn; auto).
  assert (VW : view (with_clz s e) = (e, slen s)) by reflexivity.
  assert (FBD : Forall (fun s => In (clz s) done9) b).
  { apply Forall_app in F. destruct F as [_ F]. inversion F; subst; auto. }
  assert (FN : F2 (pre0 ++ with_clz s e :: b)).
  { split; [|split].
    - apply Forall_app in F. destruct F as [F1 F]. apply Forall_app. split; auto. constructor; auto. cbn. apply lr_done. auto.
    - rewrite map_app in *. revert N. cbn [map]. apply nn_cong2; [apply Forall_map; exact FL|]. intros p' _ _. rewrite SN. cbn [with_clz clz].
      apply nn_N2; [apply e_lr|]. apply Forall_map. exact FBD.
    - rewrite <- V, !map_app. symmetry. cbn [map].
      assert (NP : forall p', (map view pre0 = [] -> p' = e) -> (forall u x, map view pre0 = u ++ [x] -> p' = fst x) ->
        nn e p' (cls (map view (s :: b))) /\ (p' <> hd cNULL (map clz b) \/ p' = e) /\ p' <> cNI).
      { intros p' P1 P2. split; [|].
        - rewrite cls_view. rewrite map_app in N.
          clear - N FL P1 P2. revert N P1 P2. generalize e at 2 3. intros p. revert p.
          induction FL as [|x l X FL IH]; intros p N P1 P2; [rewrite P1; auto|]. cbn [map app nn] in N.
          assert (Y : (clz x =? cNI) = false) by (destruct X as [<-|[<-|[]]]; reflexivity). rewrite Y in N. clear Y X.
          apply (IH (clz x) N).
          + intros Z0. destruct l; [|discriminate Z0]. apply (P2 [] (view x)). reflexivity.
          + intros u y Z0. apply (P2 (view x :: u) y). cbn [map app]. rewrite Z0. reflexivity.
        - destruct pre0 as [|x0 l0] eqn:EP.
          + rewrite P1 by reflexivity. split; auto. destruct e_lr as [-> | ->]; discriminate.
          + destruct (exists_last (l := x0 :: l0)) as (u & x & EX); [discriminate|]. rewrite EX in *.
            rewrite (P2 (map view u) (view x)) by (rewrite map_app; reflexivity). cbn [view fst].
            apply Forall_app in FL. destruct FL as [_ FL]. inversion FL as [|? ? LX _]; subst.
            split; [|destruct LX as [<-|[<-|[]]]; discriminate]. left.
            destruct b as [|d t]; [cbn; destruct LX as [<-|[<-|[]]]; discriminate|]. cbn [map hd]. intros DX.
            destruct LX as [LX|[LX|[]]].
            * apply (Q u x eq_refl N1_1 [x; s; d] t); unfold melds; auto. cbn. congruence.
            * apply (Q u x eq_refl N1_2 [x; s; d] t); unfold melds; auto. cbn. congruence. }
      apply fcP_cong2; [apply Forall_map; exact FL|]. intros p' P1 P2. destruct (NP p' P1 P2) as (N1' & N2' & N3').
      rewrite (view_of _ _ SN), VW. apply fcP_N2; auto.
      + apply Forall_map. exact FBD.
      + apply e_lr.
      + cbn [map] in N1'. rewrite (view_of _ _ SN) in N1'. exact N1'.
      + rewrite cls_view. exact N2'. }
  cbn [length]. replace (S (length pre0) - 1)%nat with (length pre0) by lia.
  destruct pre0 as [|x0 l0] eqn:EP.
  - cbn [length firstn skipn app]. left. split; auto. eexists. split; [reflexivity|]. exact FN.
  - destruct (exists_last (l := x0 :: l0)) as (u & x & EX); [discriminate|]. rewrite EX in *. clear EX EP x0 l0.
    right. exists u. rewrite app_length. cbn [length]. replace (length u + 1)%nat with (S (length u)) by lia.
    change (initial md :: u ++ [x]) with ((initial md :: u) ++ [x]).
    replace (S (length u)) with (length (initial md :: u)) by reflexivity.
    rewrite firstn_app, skipn_app, firstn_all, skipn_all, Nat.sub_diag. cbn [firstn skipn app]. rewrite app_nil_r.
    split; auto. split; [rewrite <- app_assoc in FN; exact FN|].
    apply Forall_app in FL. destruct FL as [FL FX]. inversion FX as [|? ? LX _]; subst. split; auto.
    split. { clear - LD. induction u as [|y u IH]; [exact I|]. destruct u as [|z u]; [exact I|]. cbn [app] in LD. destruct LD as [D1 D2]. split; auto. }
    intros u' y -> r m v R EM ML. destruct (lhs_meld r R) as (c & LC & _ & LH).
    assert (D : differ y x) by (rewrite <- app_assoc in LD; cbn [app] in LD; apply (linked_mid _ _ _ _ _ LD)).
    destruct LH as [X|X]; rewrite X in ML; inv_map; injection EM as <- <- _.
    + unfold differ in D. congruence.
    + rewrite H0 in LX. destruct LX as [LX|[LX|[]]]; discriminate LX.
Qed.

Lemma Y2_step a s b : G2 md tot true (a ++ s :: b) -> Y2 a (s :: b) -> clz s <> cNI -> no_meld (s :: b) -> Y2 (a ++ [s]) b.
Proof.
  intros _ Y SN NM. right. destruct Y as [(-> & w & E & FF)|(pre0 & -> & FF & FL & LD & Q)].
  - injection E as -> ->. exists []. split; auto. split; [exact FF|]. split; [constructor|]. split; [exact I|]. intros [|? ?] x X; discriminate X.
  - exists (pre0 ++ [s]). split; auto. split; [rewrite <- app_assoc; exact FF|].
    assert (LS : In (clz s) lr9).
    { destruct FF as (F & _). apply Forall_app in F. destruct F as [_ F]. inversion F as [|? ? X _]; subst. cbn in X |- *.
      destruct X as [X|[X|[X|[]]]]; auto. }
    split; [apply Forall_app; split; auto|]. split.
    + destruct pre0 as [|x0 l0] eqn:EP; [exact I|]. destruct (exists_last (l := x0 :: l0)) as (u & x & EX); [discriminate|]. rewrite EX in *.
      specialize (Q u x eq_refl). rewrite <- app_assoc.
      assert (D : differ x s).
      { intros E. apply Forall_app in FL. destruct FL as [_ FL]. inversion FL as [|? ? LX _]; subst.
        destruct LX as [LX|[LX|[]]]; [apply (Q LL [x; s] b)|apply (Q RR [x; s] b)]; unfold melds; auto; cbn; congruence. }
      clear - LD D. induction u as [|y u IH]; [split; [exact D|exact I]|]. destruct u as [|z u]; cbn [app] in *.
      * destruct LD as [L1 L2]. split; auto.
      * destruct LD as [L1 L2]. split; auto.
    + intros u x X. apply app_inj_tail in X. destruct X as [_ <-]. exact NM.
Qed.

Lemma Y2_set a s b c : G2 md tot true (a ++ s :: b) -> Y2 a (s :: b) -> isbracket s = true ->
  (K true c \/ c = cNI \/ clz s = cBRACKC /\ c = cBRACKO) -> forall u v, u ++ v = a ++ with_clz s c :: b -> Y2 u v.
Proof.
  intros _ Y BR. exfalso. unfold isbracket in BR. apply orb_true_iff in BR. rewrite !Z.eqb_eq in BR.
  destruct Y as [(-> & w & E & FF)|(pre0 & -> & (F & _) & FL & LD & Q)].
  - injection E as -> _. unfold initial, initialOuterScrap in BR. destruct (m_r2l md); destruct BR as [X|X]; discriminate X.
  - apply Forall_app in F. destruct F as [_ F]. inversion F as [|? ? X _]; subst. cbn in X. destruct BR as [B|B]; rewrite B in X; decompose [or] X; try discriminate; contradiction.
Qed.

(* What is left at the end. *)
Definition painted (ss : list scrap) : list Z := flat_map (fun s => repeat (clz s) (Z.to_nat (sr s - sl s))) ss.

Lemma Y2_end w : Y2 w [] -> painted w = target /\ exists w', w = initial md :: w' /\ Forall (fun s => clz s = cL \/ clz s = cR) w' /\ linked differ w'.
Proof.
  intros [(-> & w' & X & _)|(pre0 & -> & (_ & _ & V) & FL & LD & _)]; [discriminate X|]. rewrite app_nil_r in V.
  rewrite fcP_done in V by (apply Forall_map; exact FL). split.
  - cbn [painted flat_map]. replace (sr (initial md) - sl (initial md)) with 0 by (unfold initial, initialOuterScrap; destruct (m_r2l md); reflexivity).
    cbn [Z.to_nat repeat app]. rewrite <- V. unfold painted. clear. induction pre0 as [|s l IH]; [reflexivity|]. cbn. rewrite IH. reflexivity.
  - exists pre0. split; auto. split; auto. eapply Forall_impl; [|exact FL]. intros s [X|[X|[]]]; auto.
Qed.
End Res.
