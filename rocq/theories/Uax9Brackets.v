(* Uax9Brackets.v -- texts with brackets: the resolved classes are those of UAX#9 with rule N0. *)
From Coq Require Import List ZArith Lia Bool.
From Verif Require Import SplitProofs Base Scrap Brackets Bd16Spec BracketProofs Trie Rules RuleProofs Reorder ReorderSpec ReorderProofs Scanner ScannerProofs Resolver ResolverProofs ResolverFlat ResolverText Uax9Spec Uax9N0Spec Uax9Proofs Uax9Resolve Uax9Text NestedText ScanContext BracketText.
Import ListNotations.
Open Scope Z_scope.

(* ---- the rules N1 and N2 on runs of the classes L, R and NI ---- *)
Fixpoint next_dir (e : Z) (l : list (Z * nat)) : Z :=
  match l with [] => e | (c, _) :: t => if c =? cNI then next_dir e t else c end.
Fixpoint fin (e p : Z) (l : list (Z * nat)) : list Z :=
  match l with
  | [] => []
  | (c, n) :: t => if c =? cNI then repeat (if p =? next_dir e t then p else e) n ++ fin e p t else repeat c n ++ fin e c t
  end.

Definition lr (c : Z) : Prop := c = cL \/ c = cR.
Lemma lr_ni c : lr c -> (c =? cNI) = false.
Proof. intros [-> | ->]; reflexivity. Qed.

Lemma fin_join e p c n m t : fin e p ((c, n) :: (c, m) :: t) = fin e p ((c, (n + m)%nat) :: t).
Proof.
  cbn [fin next_dir]. destruct (Z.eqb_spec c cNI) as [->|N].
  - rewrite repeat_app, app_assoc. reflexivity.
  - rewrite repeat_app, app_assoc. reflexivity.
Qed.
Lemma next_join e c n m t : next_dir e ((c, n) :: (c, m) :: t) = next_dir e ((c, (n + m)%nat) :: t).
Proof. cbn [next_dir]. destruct (c =? cNI); reflexivity. Qed.

Lemma last_shift {A} (f : A -> Z) b a p q : last (map f (b :: a)) p = last (map f (b :: a)) q.
Proof. revert b. induction a as [|z a IH]; intros b; [reflexivity|]. cbn [map last]. apply IH. Qed.

(* Exchanging a tail after classes L and R. *)
Lemma fin_last e : forall a x y p, Forall (fun z => lr (fst z)) a -> fin e (last (map fst a) p) x = fin e (last (map fst a) p) y ->
  fin e p (a ++ x) = fin e p (a ++ y).
Proof.
  induction a as [|[c n] a IH]; intros x y p F H; [exact H|]. inversion F as [|? ? F1 F2]; subst. cbn [fst] in F1.
  cbn [app fin]. rewrite (lr_ni c F1). f_equal. apply IH; auto.
  cbn [map fst] in H. destruct a as [|b a]; [exact H|]. change (last (c :: map fst (b :: a)) p) with (last (map fst (b :: a)) p) in H.
  rewrite (last_shift fst b a c p). exact H.
Qed.

Lemma fin_N1 e p c a n b t : lr c -> fin e p ((c, a) :: (cNI, n) :: (c, b) :: t) = fin e p ((c, (a + n + b)%nat) :: t).
Proof.
  intros L. cbn [fin next_dir]. rewrite (lr_ni c L). change (cNI =? cNI) with true. cbv iota. rewrite Z.eqb_refl, !repeat_app, !app_assoc. reflexivity.
Qed.
Lemma fin_N2 e p n t : lr e -> (p = next_dir e t -> p = e) -> (forall c m u, t = (c, m) :: u -> c <> cNI) ->
  fin e p ((cNI, n) :: t) = fin e p ((e, n) :: t).
Proof.
  intros L H T. cbn [fin]. change (cNI =? cNI) with true. cbv iota. rewrite (lr_ni e L).
  assert (X : (if p =? next_dir e t then p else e) = e) by (destruct (Z.eqb_spec p (next_dir e t)) as [E|_]; auto).
  rewrite X. f_equal. destruct t as [|[c m] u]; [reflexivity|]. specialize (T c m u eq_refl). apply Z.eqb_neq in T. cbn [fin]. rewrite T. reflexivity.
Qed.

Lemma fin_done e : forall l p, Forall (fun z => lr (fst z)) l -> fin e p l = flat_map (fun z => repeat (fst z) (snd z)) l.
Proof. induction l as [|[c n] t IH]; intros p F; [reflexivity|]. inversion F as [|? ? F1 F2]; subst. cbn [fin flat_map fst snd]. rewrite (lr_ni c F1), IH by auto. reflexivity. Qed.

(* ---- and on characters ---- *)
Definition three (c : Z) : Prop := lr c \/ NI_class c = true.
Definition short_class (c : Z) : Z := if NI_class c then cNI else c.
Lemma N12_fin e : forall cs lens p, length lens = length cs -> Forall three cs ->
  spread (N12 e p cs) lens = fin e p (combine (map short_class cs) (map Z.to_nat lens)).
Proof.
  assert (A : forall cs ns, length ns = length cs -> Forall three cs -> side_ahead e cs = next_dir e (combine (map short_class cs) ns)).
  { induction cs as [|c t IH]; intros [|n ns] LN F; try discriminate LN; [reflexivity|]. injection LN as LN. inversion F as [|? ? F1 F2]; subst.
    cbn [side_ahead map combine next_dir]. unfold short_class at 1 2. destruct (NI_class c) eqn:EN; [apply IH; auto|].
    destruct F1 as [L|X]; [|congruence]. rewrite (lr_ni c L). destruct L as [-> | ->]; reflexivity. }
  induction cs as [|c t IH]; intros [|n lens] p LN F; try discriminate LN; [reflexivity|]. injection LN as LN. inversion F as [|? ? F1 F2]; subst.
  cbn [N12 map combine fin]. destruct (NI_class c) eqn:EN.
  - assert (SC : short_class c = cNI) by (unfold short_class; rewrite EN; reflexivity). rewrite SC.
    change (cNI =? cNI) with true. cbv iota. unfold spread in *. cbn [combine flat_map fst snd].
    rewrite IH by auto. rewrite (A t (map Z.to_nat lens)) by (auto; rewrite map_length; auto). reflexivity.
  - assert (SC : short_class c = c) by (unfold short_class; rewrite EN; reflexivity). rewrite SC.
    destruct F1 as [L|X]; [|congruence]. rewrite (lr_ni c L). unfold spread in *. cbn [combine flat_map fst snd].
    rewrite IH by auto. f_equal. destruct L as [-> | ->]; reflexivity.
Qed.

(* ---- the second pass ---- *)
Section Res.
Context (md : mode) (tot : Z) (kk : Z -> Z) (target : list Z).
Notation e := (outer md).
(* The class of a scrap, for a bracket that of its position. *)
Definition final (s : scrap) : Z := if isbracket s then kk (sl s) else clz s.
Definition fview (s : scrap) : Z * nat := (final s, slen s).
Definition tag (s : scrap) : Z * bool := (final s, isbracket s).

(* No two neutrals are neighbours; a neutral before a bracket is not between equal classes, unless they
   are that of the embedding. *)
Fixpoint nb (p : Z) (l : list (Z * bool)) : Prop :=
  match l with
  | [] => True
  | (c, _) :: t => if c =? cNI then match t with [] => True | (d, b) :: _ => d <> cNI /\ (b = true -> p = d -> p = e) end /\ nb p t else nb c t
  end.
Lemma nb_last : forall a x p, Forall (fun z => lr (fst z)) a -> nb p (a ++ x) <-> nb (last (map fst a) p) x.
Proof.
  induction a as [|[c f] a IH]; intros x p F; [reflexivity|]. inversion F as [|? ? F1 F2]; subst. cbn [fst] in F1. cbn [app nb]. rewrite (lr_ni c F1), (IH _ _ F2).
  cbn [map fst]. destruct a as [|b a]; [reflexivity|]. change (last (c :: map fst (b :: a)) p) with (last (map fst (b :: a)) p).
  rewrite (last_shift fst b a c p). reflexivity.
Qed.

Definition okc (s : scrap) : Prop := lr (clz s) \/ clz s = cNI \/ isbracket s = true /\ lr (kk (sl s)).
Definition F3 (w : list scrap) : Prop := Forall okc w /\ nb e (map tag w) /\ fin e e (map fview w) = target.
Definition Y3 (pre rest : list scrap) : Prop :=
  (pre = [] /\ exists w, rest = initial md :: w /\ F3 w) \/
  (exists pre0, pre = initial md :: pre0 /\ F3 (pre0 ++ rest) /\ Forall (fun s => lr (clz s)) pre0 /\ linked differ pre0 /\
     forall u x, pre0 = u ++ [x] -> no_meld (x :: rest)).

Lemma e_is_lr : lr e. Proof. unfold lr, outer. destruct (m_r2l md); auto. Qed.
Lemma lr_nobr s : lr (clz s) -> isbracket s = false.
Proof. intros [X|X]; unfold isbracket; rewrite X; reflexivity. Qed.
Lemma ni_nobr s : clz s = cNI -> isbracket s = false.
Proof. intros X; unfold isbracket; rewrite X; reflexivity. Qed.
Lemma final_nobr s : isbracket s = false -> final s = clz s.
Proof. unfold final. intros ->. reflexivity. Qed.
Lemma fview_lr s : lr (clz s) -> fview s = (clz s, slen s).
Proof. intros L. unfold fview. rewrite final_nobr by (apply lr_nobr, L). reflexivity. Qed.
Lemma tag_lr s : lr (clz s) -> tag s = (clz s, false).
Proof. intros L. unfold tag. rewrite final_nobr by (apply lr_nobr, L). rewrite lr_nobr; auto. Qed.

Lemma pre_views pre0 : Forall (fun s => lr (clz s)) pre0 ->
  Forall (fun z => lr (fst z)) (map fview pre0) /\ Forall (fun z => lr (fst z)) (map tag pre0) /\
  map fst (map fview pre0) = map clz pre0 /\ map fst (map tag pre0) = map clz pre0.
Proof.
  induction 1 as [|s l L F (I1 & I2 & I3 & I4)]; [cbn; auto|]. cbn [map]. rewrite (fview_lr s L), (tag_lr s L). cbn [fst]. rewrite I3, I4. auto.
Qed.

(* Exchanging the rest. *)
Lemma F3_tail pre0 x y : Forall (fun s => lr (clz s)) pre0 -> F3 (pre0 ++ x) -> Forall okc y ->
  (nb (last (map clz pre0) e) (map tag x) -> nb (last (map clz pre0) e) (map tag y)) ->
  fin e (last (map clz pre0) e) (map fview x) = fin e (last (map clz pre0) e) (map fview y) ->
  F3 (pre0 ++ y).
Proof.
  intros FL (A & B & C) FY N1 N2. destruct (pre_views pre0 FL) as (V1 & V2 & V3 & V4). split; [|split].
  - apply Forall_app in A. apply Forall_app. tauto.
  - rewrite map_app in *. rewrite nb_last in * by exact V2. rewrite V4 in *. auto.
  - rewrite <- C, !map_app. symmetry. apply fin_last; [exact V1|]. rewrite V3. exact N2.
Qed.

Lemma no_meld_apart x y rest : lr (clz y) -> differ x y -> no_meld (x :: y :: rest).
Proof.
  intros L D r m v R EM ML. destruct (lhs_meld r R) as (c & LC & _ & [X|X]); rewrite X in ML; inv_map; injection EM as <- <- _.
  - apply D. congruence.
  - rewrite H0 in L. destruct L; discriminate.
Qed.

Lemma linked_front R (a b : list scrap) : linked R (a ++ b) -> linked R a.
Proof.
  induction a as [|x a IH]; [intros _; exact I|]. destruct a as [|y a]; [intros _; exact I|]. cbn [app]. intros [D L]. split; auto.
Qed.

(* Going back. *)
Lemma Y3_back pre0 rest j : F3 (pre0 ++ rest) -> Forall (fun s => lr (clz s)) pre0 -> linked differ pre0 -> (1 <= j)%nat ->
  forall u v, u ++ v = (initial md :: pre0) ++ rest -> length u = (S (length pre0) - j)%nat -> Y3 u v.
Proof.
  intros FF FL LD J u v E LU. destruct u as [|i u].
  - left. split; auto. cbn [app] in E. exists (pre0 ++ rest). subst v. auto.
  - cbn [app length] in *. injection E as -> E. right. exists u. split; auto. rewrite E. split; auto.
    assert (LE : (length u < length pre0)%nat) by lia.
    destruct (app_eq_app _ _ _ _ E) as (z & [[E1 E2]|[E1 E2]]).
    { rewrite E1, app_length in LE. lia. }
    rewrite E1 in FL, LD. apply Forall_app in FL. destruct FL as [FL FZ]. split; auto. split; [apply (linked_front _ _ _ LD)|].
    intros u' x ->. destruct z as [|y z]; [rewrite E1, app_nil_r in LE; lia|]. subst v. cbn [app]. inversion FZ as [|? ? FY _]; subst.
    apply no_meld_apart; auto. rewrite <- app_assoc in LD. cbn [app] in LD. apply (linked_mid _ _ _ _ _ LD).
Qed.

Lemma initial_class : clz (initial md) = cLRI \/ clz (initial md) = cRLI.
Proof. unfold initial, initialOuterScrap. destruct (m_r2l md); cbn; auto. Qed.

Lemma Y3_meld a m b r : G2 md tot true (a ++ m ++ b) -> Y3 a (m ++ b) -> melds r -> map clz m = lhs r -> Y3 a (merge (target2 r) m :: b).
Proof.
  intros (_ & _ & T & _) Y R M. destruct (lhs_meld r R) as (c & LC & TC & LH).
  assert (LR : lr c) by (destruct LC as [<-|[<-|[]]]; unfold lr; auto).
  assert (NM : m <> []) by (destruct m; [destruct LH as [X|X]; rewrite X in M; discriminate M|discriminate]).
  assert (HM : clz (hd scrap0 m) = c) by (destruct LH as [X|X]; rewrite X in M; inv_map; auto).
  destruct Y as [(-> & w & E & _)|(pre0 & -> & FF & FL & LD & Q)].
  { exfalso. destruct m as [|h m]; [congruence|]. injection E as -> _. cbn [hd] in HM. destruct initial_class as [X|X]; rewrite X in HM; destruct LR as [Z0|Z0]; rewrite Z0 in HM; discriminate HM. }
  assert (T' : tiles (sr (initial md)) (pre0 ++ m ++ b) tot) by (cbn [app tiles] in T; tauto).
  pose proof (view_merge c pre0 m b _ _ T' NM) as VM. rewrite TC in *.
  assert (CM : clz (merge c m) = c) by reflexivity.
  assert (FM : fview (merge c m) = (c, list_sum (map slen m))) by (rewrite fview_lr by (rewrite CM; exact LR); exact VM).
  assert (TM : tag (merge c m) = (c, false)) by (rewrite tag_lr by (rewrite CM; exact LR); reflexivity).
  right. exists pre0. split; auto. split; [|split; [exact FL|split; [exact LD|]]].
  - apply (F3_tail pre0 (m ++ b)); auto.
    + constructor; [left; exact LR|]. destruct FF as (F & _). apply Forall_app in F. destruct F as [_ F]. apply Forall_app in F. tauto.
    + cbn [map]. rewrite TM. cbn [nb]. rewrite (lr_ni c LR). destruct LH as [X|X]; rewrite X in M; inv_map; cbn [app map].
      * rewrite (tag_lr s), (tag_lr s0) by (rewrite ?H, ?H0; auto). cbn [nb]. rewrite H, H0, (lr_ni c LR). auto.
      * rewrite (tag_lr s), (tag_lr s1) by (rewrite ?H, ?H1; auto). cbn [nb]. rewrite H, H1, (lr_ni c LR). unfold tag at 1. rewrite (final_nobr s0), H0 by (apply ni_nobr; auto).
        cbn [nb]. change (cNI =? cNI) with true. cbv iota. tauto.
    + cbn [map]. destruct LH as [X|X]; rewrite X in M; inv_map; rewrite ?sum2, ?sum3 in FM; rewrite FM; cbn [app map].
      * rewrite (fview_lr s), (fview_lr s0) by (rewrite ?H, ?H0; auto). rewrite H, H0. apply fin_join.
      * rewrite (fview_lr s), (fview_lr s1) by (rewrite ?H, ?H1; auto). rewrite H, H1. unfold fview at 1. rewrite (final_nobr s0), H0 by (apply ni_nobr; auto).
        apply fin_N1, LR.
  - intros u x -> r' m' v R' EM' ML'. apply (Q u x eq_refl r' (firstn (length m') (x :: m ++ b)) (skipn (length m') (x :: m ++ b)) R').
    + symmetry. apply firstn_skipn.
    + destruct (lhs_meld r' R') as (c' & LC' & _ & LH'). destruct m as [|h m]; [congruence|]. cbn [hd] in HM.
      destruct LH' as [X|X]; rewrite X in *; inv_map; injection EM' as <- EM' _.
      * subst. cbn in *. congruence.
      * exfalso. subst. cbn in *. clear - LC H0. destruct LC as [X|[X|[]]]; rewrite <- X in H0; discriminate H0.
Qed.

Lemma se_e s : edir (sctx s) = e -> se s = e.
Proof. intros X. unfold se. rewrite X. unfold outer. destruct (m_r2l md); reflexivity. Qed.

Lemma Y3_N2 a s b : G2 md tot true (a ++ s :: b) -> Y3 a (s :: b) -> clz s = cNI ->
  Y3 (firstn (length a - 1) a) (skipn (length a - 1) a ++ with_clz s (se s) :: b).
Proof.
  intros (_ & FB & _ & _) Y SN.
  assert (SE : se s = e).
  { apply se_e. rewrite Forall_forall in FB. destruct (FB s) as (_ & _ & _ & X & _); [apply in_or_app; right; left; auto|exact X]. }
  rewrite SE. destruct Y as [(-> & w & E & _)|(pre0 & -> & FF & FL & LD & Q)].
  { exfalso. injection E as -> _. destruct initial_class as [X|X]; rewrite X in SN; discriminate. }
  assert (LE : lr (clz (with_clz s e))) by apply e_is_lr.
  apply (Y3_back pre0 (with_clz s e :: b) 1); auto.
  - assert (HD : match map tag b with [] => True | (d, f) :: _ => d <> cNI /\ (f = true -> last (map clz pre0) e = d -> last (map clz pre0) e = e) end).
    { destruct FF as (_ & N & _). rewrite map_app in N. destruct (pre_views pre0 FL) as (_ & V2 & _ & V4). rewrite nb_last, V4 in N by exact V2.
      cbn [map] in N. unfold tag at 1 in N. rewrite (final_nobr s), SN in N by (apply ni_nobr; auto). cbn [nb] in N. change (cNI =? cNI) with true in N. cbv iota in N. tauto. }
    apply (F3_tail pre0 (s :: b)); auto.
    + destruct FF as (F & _). apply Forall_app in F. destruct F as [_ F]. inversion F; subst. constructor; auto. left. exact LE.
    + cbn [map]. rewrite (tag_lr _ LE). unfold tag at 1. rewrite (final_nobr s), SN by (apply ni_nobr; auto). cbn [nb clz with_clz].
      change (cNI =? cNI) with true. cbv iota. rewrite (lr_ni e e_is_lr). intros [_ N]. destruct (map tag b) as [|[d f] t]; [exact I|]. destruct HD as [HD _].
      apply Z.eqb_neq in HD. cbn [nb] in *. rewrite HD in *. exact N.
    + cbn [map]. rewrite (fview_lr _ LE). unfold fview at 1. rewrite (final_nobr s), SN by (apply ni_nobr; auto). cbn [clz with_clz].
      change (slen (with_clz s e)) with (slen s). apply fin_N2; [apply e_is_lr| |].
      * destruct b as [|d t]; [auto|]. cbn [map] in HD |- *. unfold tag at 1 in HD. destruct HD as [H1 H2]. cbn [fview]. unfold fview at 1. cbn [next_dir].
        apply Z.eqb_neq in H1. rewrite H1. intros X. destruct (isbracket d) eqn:BD; [apply H2; auto|]. rewrite (final_nobr d BD) in X.
        destruct pre0 as [|x0 l0] eqn:EP; [reflexivity|]. destruct (exists_last (l := x0 :: l0)) as (u & x & EX); [discriminate|]. rewrite EX in *.
        rewrite map_app in X. cbn [map] in X. rewrite last_last in X. apply Forall_app in FL. destruct FL as [_ FL]. inversion FL as [|? ? LX _]; subst.
        exfalso. destruct LX as [LX|LX]; [apply (Q u x eq_refl N1_1 [x; s; d] t)|apply (Q u x eq_refl N1_2 [x; s; d] t)]; unfold melds; auto; cbn; congruence.
      * intros c m u X. destruct b as [|d t]; [discriminate|]. cbn [map] in HD, X. injection X as X _ _. unfold tag at 1 in HD. destruct HD as [H1 _]. congruence.
  - rewrite app_assoc, firstn_skipn. reflexivity.
  - rewrite firstn_length. cbn [length]. lia.
Qed.

Lemma Y3_step a s b : Y3 a (s :: b) -> clz s <> cNI -> isbracket s = false -> no_meld (s :: b) -> Y3 (a ++ [s]) b.
Proof.
  intros Y SN BS NM. right. destruct Y as [(-> & w & E & FF)|(pre0 & -> & FF & FL & LD & Q)].
  - injection E as -> ->. exists []. split; auto. split; [exact FF|]. split; [constructor|]. split; [exact I|]. intros [|? ?] x X; discriminate X.
  - exists (pre0 ++ [s]). split; auto. split; [rewrite <- app_assoc; exact FF|].
    assert (LS : lr (clz s)).
    { destruct FF as (F & _). apply Forall_app in F. destruct F as [_ F]. inversion F as [|? ? X _]; subst. destruct X as [X|[X|[X _]]]; [exact X|congruence|congruence]. }
    split; [apply Forall_app; split; auto|]. split.
    + destruct pre0 as [|x0 l0] eqn:EP; [exact I|]. destruct (exists_last (l := x0 :: l0)) as (u & x & EX); [discriminate|]. rewrite EX in *.
      specialize (Q u x eq_refl). rewrite <- app_assoc.
      assert (D : differ x s).
      { intros E. apply Forall_app in FL. destruct FL as [_ FL]. inversion FL as [|? ? LX _]; subst.
        destruct LX as [LX|LX]; [apply (Q LL [x; s] b)|apply (Q RR [x; s] b)]; unfold melds; auto; cbn; congruence. }
      clear - LD D. induction u as [|y u IH]; [split; [exact D|exact I]|]. destruct u as [|z u]; cbn [app] in *.
      * destruct LD as [L1 L2]. split; auto.
      * destruct LD as [L1 L2]. split; auto.
    + intros u x X. apply app_inj_tail in X. destruct X as [_ <-]. exact NM.
Qed.

(* A bracket gets its class. *)
Lemma Y3_set a s b : Y3 a (s :: b) -> isbracket s = true ->
  lr (kk (sl s)) /\ forall u v, u ++ v = a ++ with_clz s (kk (sl s)) :: b -> length u = jump 0 (length a) (-2) -> Y3 u v.
Proof.
  intros Y BS. destruct Y as [(-> & w & E & FF)|(pre0 & -> & FF & FL & LD & Q)].
  { exfalso. injection E as -> _. unfold isbracket in BS. destruct initial_class as [X|X]; rewrite X in BS; discriminate. }
  assert (LS : lr (kk (sl s))).
  { destruct FF as (F & _). apply Forall_app in F. destruct F as [_ F]. inversion F as [|? ? X _]; subst. unfold isbracket in BS. destruct X as [[X|X]|[X|[_ X]]]; auto; rewrite X in BS; discriminate. }
  split; [exact LS|]. set (k := kk (sl s)) in *. assert (LK : lr (clz (with_clz s k))) by exact LS.
  intros u v E LU. apply (Y3_back pre0 (with_clz s k :: b) 2); auto.
  - assert (FS : final s = k) by (unfold final; rewrite BS; reflexivity).
    apply (F3_tail pre0 (s :: b)); auto.
    + destruct FF as (F & _). apply Forall_app in F. destruct F as [_ F]. inversion F; subst. constructor; auto. left. exact LS.
    + cbn [map]. rewrite (tag_lr _ LK). unfold tag at 1. rewrite FS. cbn [nb clz with_clz]. rewrite (lr_ni k LS). auto.
    + cbn [map]. rewrite (fview_lr _ LK). unfold fview at 1. rewrite FS. reflexivity.
  - rewrite LU. unfold jump. cbn [length]. lia.
Qed.

Lemma Y3_end w : Y3 w [] -> painted w = target /\ exists w', w = initial md :: w' /\ Forall (fun s => clz s = cL \/ clz s = cR) w' /\ linked differ w'.
Proof.
  intros [(-> & w' & X & _)|(pre0 & -> & (_ & _ & V) & FL & LD & _)]; [discriminate X|]. rewrite app_nil_r in V.
  destruct (pre_views pre0 FL) as (V1 & _). rewrite fin_done in V by exact V1. split.
  - cbn [painted flat_map]. replace (sr (initial md) - sl (initial md)) with 0 by (unfold initial, initialOuterScrap; destruct (m_r2l md); reflexivity).
    cbn [Z.to_nat repeat app]. rewrite <- V. unfold painted. clear - FL. induction FL as [|s l L _ IH]; [reflexivity|]. cbn [flat_map map]. rewrite IH, (fview_lr s L). reflexivity.
  - exists pre0. auto.
Qed.
End Res.
