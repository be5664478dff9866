(* PairProofs.v -- two breakers of the library in one segmenter. *)
From Coq Require Import List ZArith Lia Bool.
From Verif Require Import Base RuneWrite Segmenter SegSpec SegProofs SegInv SegNext SegCut SegFacade BreakSpec BreakFacade SegWeak Rows SegEager SegPair SegLate AnyBreaker PairSpec LineSettled SimplePair.
From Verif Require Grapheme GraphemeProofs Words WordSpec WordProofs WordVerdict Line LineSum LineVerdict LineCor LineAgree LineSpec SimpleWord.
Import ListNotations.
Open Scope Z_scope.

(* ---- the answers of a breaker behind the interface are its own ---- *)
Lemma any_g t : forall rs b, answers (any_step t) (Graphemes b) rs = answers (Grapheme.gb_step (tg t) (tpict t)) b rs.
Proof.
  induction rs as [|r rs IH]; intros b; [reflexivity|]. cbn [answers any_step]. destruct (Grapheme.gb_step (tg t) (tpict t) b r) as ((b' & lam) & ps).
  cbn [fst snd]. now rewrite IH.
Qed.
Lemma any_w t : forall rs b, answers (any_step t) (WordBreaks b) rs = answers (Words.wb_step (tw t) (tpict t)) b rs.
Proof.
  induction rs as [|r rs IH]; intros b; [reflexivity|]. cbn [answers any_step]. destruct (Words.wb_step (tw t) (tpict t) b r) as ((b' & lam) & ps).
  cbn [fst snd]. now rewrite IH.
Qed.
Lemma any_l t : forall rs b, answers (any_step t) (LineBreaks b) rs = answers (Line.lb_step (tl_ t) (tcomb t)) b rs.
Proof.
  induction rs as [|r rs IH]; intros b; [reflexivity|]. cbn [answers any_step]. destruct (Line.lb_step (tl_ t) (tcomb t) b r) as ((b' & lam) & ps).
  cbn [fst snd]. now rewrite IH.
Qed.
Lemma any_s t : forall rs b, answers (any_step t) (Spaces b) rs = answers (SimpleWord.swb_step (tspace t)) b rs.
Proof.
  induction rs as [|r rs IH]; intros b; [reflexivity|]. cbn [answers]. rewrite <- IH. cbn [any_step]. destruct (SimpleWord.swb_step (tspace t) b r) as ((b' & lam) & ps).
  reflexivity.
Qed.

Lemma settled_one an k : (1 <= k)%nat -> (k <= length an)%nat -> settled (map row1 an) k = Z.of_nat k - lam_after an k.
Proof.
  intros H1 H2. unfold settled. rewrite (nth_indep _ [] (row1 (0, []))) by (rewrite map_length; lia). rewrite map_nth, longest_one.
  destruct k as [|j]; [lia|]. cbn [lam_after]. rewrite Nat.sub_succ, Nat.sub_0_r. reflexivity.
Qed.
Lemma last_lam (an : list answer) : an <> [] -> lam_after an (length an) = longest (last (map row1 an) []).
Proof.
  intros H. rewrite last_one, longest_one by auto. destruct an as [|x t]; [congruence|]. cbn [length lam_after]. f_equal. f_equal. clear H. revert x.
  induction t as [|y t IH]; intros x; [reflexivity|]. change (last (x :: y :: t) (0, [])) with (last (y :: t) (0, [])). rewrite <- IH. reflexivity.
Qed.
Lemma first_lam an k (i : nat) : Z.of_nat i < Z.of_nat k - lam_after an k -> (1 <= k)%nat /\ (i < k)%nat.
Proof. destruct k as [|j]; cbn [lam_after]; lia. Qed.

(* ---- graphemes ---- *)
Section Text.
Context (t : tables) (text : list Z).
Notation an k := (answers (any_step t) (new_breaker k) (text ++ [0])).
Definition verdict_of (k : kind) (i : nat) : bool :=
  match skipn (S i) text with [] => true | u => rules t k (rev (firstn (S i) text)) u end.
Definition hot_of (k : kind) (i : nat) : bool :=
  match k with KLines => hot_line (map (lcl t) text) i && verdict_of KLines i | _ => false end.

Lemma an_g : an KGraphemes = GraphemeProofs.ganswers (tg t) (tpict t) [] (text ++ [0]).
Proof. cbn [new_breaker]. rewrite any_g. apply GraphemeProofs.answers_new. Qed.
Lemma an_w : an KWords = rows WordProofs.wnext WordProofs.wlam WordProofs.wpens (WordProofs.W0, 0) (map (wcls t) (text ++ [0])).
Proof. cbn [new_breaker]. rewrite any_w. apply WordVerdict.answers_new. Qed.
Lemma an_l : an KLines = rows LineSum.lnext LineSum.llam LineSum.lpens LineSum.st0 (map (lcl t) text ++ [Line.eot]).
Proof.
  cbn [new_breaker]. rewrite any_l. rewrite (LineCor.line_rows _ _ _ _ _ LineSum.st0_ok LineCor.new_state), map_app. cbn [map]. rewrite LineCor.lcls_0. reflexivity.
Qed.
Lemma an_any k : length (an k) = S (length text).
Proof.
  assert (G : forall l b, length (answers (any_step t) b l) = length l).
  { induction l as [|r l IH]; intros b; [reflexivity|]. cbn [answers length]. now rewrite IH. }
  rewrite G, app_length. cbn. lia.
Qed.

Lemma decides_g : decides text (an KGraphemes) (verdict_of KGraphemes) (hot_of KGraphemes).
Proof.
  pose proof (an_any KGraphemes) as L. rewrite an_g in *. set (a := GraphemeProofs.ganswers (tg t) (tpict t) [] (text ++ [0])) in *.
  pose proof (GraphemeProofs.gconforming (tg t) (tpict t) text) as C. fold a in C.
  pose proof (GraphemeProofs.gverdict (tg t) (tpict t) text) as V. fold a in V.
  assert (E : forall k i, (k <= length a)%nat -> (i < length text)%nat -> Z.of_nat i < Z.of_nat k - lam_after a k -> test_after text a k i = verdict_of KGraphemes i).
  { intros k i Hk Hi Hs. destruct (first_lam _ _ _ Hs) as [H1 _]. unfold test_after. rewrite <- firstn_map, (C k i), V; [reflexivity|auto|rewrite map_length; lia|].
    rewrite settled_one; auto. }
  split; auto.
  - intros k i Hk Hi Hs T. now rewrite <- (E k i).
  - intros k i Hi Hk Hs _ T. rewrite (E k i); auto. lia.
  - intros i _ H. discriminate.
  - rewrite last_lam by (intros X; rewrite X in L; discriminate). apply GraphemeProofs.glast1.
Qed.

Lemma decides_w : decides text (an KWords) (verdict_of KWords) (hot_of KWords).
Proof.
  pose proof (an_any KWords) as L. rewrite an_w in *.
  destruct (rows_width WordProofs.wnext WordProofs.wlam WordProofs.wpens (map (wcls t) (text ++ [0])) (WordProofs.W0, 0)) as [w Hw].
  pose proof (WordVerdict.wconforming (tw t) (tpict t) text w Hw) as C.
  pose proof (WordVerdict.wverdict (tw t) (tpict t) text w Hw) as V.
  pose proof (WordVerdict.wsettled (tw t) (tpict t) text w Hw) as W.
  pose proof (WordVerdict.wlast1 (tw t) (tpict t) text) as La.
  change (Words.CodePointClassFor (tw t) (tpict t)) with (wcls t) in C, V, W, La.
  set (a := rows WordProofs.wnext WordProofs.wlam WordProofs.wpens (WordProofs.W0, 0) (map (wcls t) (text ++ [0]))) in *.
  split; auto.
  - intros k i Hk Hi Hs T. destruct (first_lam _ _ _ Hs) as [H1 _]. unfold test_after in T. rewrite <- firstn_map in T. unfold verdict_of. rewrite <- V by auto.
    rewrite <- (C k i) with (j := i); auto; [rewrite map_length; lia|rewrite settled_one; auto].
  - intros k i Hi Hk Hs _ T. unfold test_after. unfold verdict_of in T. rewrite <- V in T by lia.
    destruct (Nat.eq_dec k (length a)) as [->|]; [rewrite firstn_all; exact T|].
    assert (Hw' : Forall (fun x : answer => (length (snd x) <= w)%nat) (firstn k a)).
    { apply Forall_forall. intros x Ia. rewrite Forall_forall in Hw. apply Hw. fold a. rewrite <- (firstn_skipn k a). apply in_or_app. auto. }
    rewrite (test_pos text a w) in T by (auto; lia). rewrite (test_pos text _ w) by (auto; lia). rewrite (proj1 (W k i ltac:(lia) ltac:(lia) ltac:(destruct k; [lia|]; rewrite Nat.sub_succ, Nat.sub_0_r; exact Hs))); auto.
  - intros i _ H. discriminate.
  - rewrite last_lam by (intros X; rewrite X in L; discriminate). exact La.
Qed.

Lemma decides_l : decides text (an KLines) (verdict_of KLines) (hot_of KLines).
Proof.
  rewrite an_l. destruct (decides_line (map (lcl t) text) (LineAgree.classes_ok _ _ _) text ltac:(now rewrite map_length)) as [A C D E F].
  assert (V : forall i, (i < length text)%nat -> LineVerdict.LV (map (lcl t) text) i = verdict_of KLines i).
  { intros i Hi. exact (LineAgree.LV_text (tl_ t) (tcomb t) text i Hi). }
  split; auto.
  - intros k i Hk Hi Hs T. rewrite <- V by auto. apply (C k i); auto.
  - intros k i Hi Hk Hs Hh T. assert (Li : (i < length text)%nat) by lia. apply D; auto; [|rewrite V; auto].
    destruct Hh as [Hh|Hh]; [auto|right]. unfold hot_of in Hh. now rewrite T, andb_true_r in Hh.
  - intros i Hi Hh. apply E; auto. unfold hot_of in Hh. apply andb_prop in Hh. apply Hh.
Qed.
Lemma decides_s : tspace t 0 = false /\ Forall (fun r => r <> 0) text -> decides text (an KSpaces) (verdict_of KSpaces) (hot_of KSpaces).
Proof.
  intros [N0 Nz]. cbn [new_breaker]. rewrite any_s. destruct (decides_simple (tspace t) N0 text Nz) as [A C D E F].
  assert (V : forall i, (i < length text)%nat -> SV (tspace t) text i = verdict_of KSpaces i).
  { intros i Hi. unfold SV, verdict_of. destruct (skipn (S i) text) as [|r u]; [reflexivity|]. cbn [rules hd]. f_equal. f_equal. f_equal.
    rewrite (WordVerdict.rev_firstn_S text i) by auto. reflexivity. }
  split; auto.
  - intros k i Hk Hi Hs T. rewrite <- V by auto. apply (C k i); auto.
  - intros k i Hi Hk Hs Hh T. apply D; auto. rewrite V; auto. lia.
Qed.
Lemma decides_any k : (k = KSpaces -> tspace t 0 = false /\ Forall (fun r => r <> 0) text) -> decides text (an k) (verdict_of k) (hot_of k).
Proof. intros H. destruct k; [apply decides_g|apply decides_w|apply decides_l|apply decides_s; auto]. Qed.

(* graphemes and lines keep the last rune open *)
Definition holds_open (k : kind) : bool := match k with KGraphemes | KLines => true | _ => false end.
Lemma lam_any k : holds_open k = true -> Forall (fun a : answer => 1 <= fst a) (an k).
Proof.
  intros N. destruct k; try discriminate.
  - rewrite an_g. apply Forall_forall. intros a Ia. apply (In_nth _ _ (0, [])) in Ia. destruct Ia as (n & Hn & <-).
    rewrite GraphemeProofs.ganswers_len in Hn. rewrite GraphemeProofs.gnth by auto. apply GraphemeProofs.plam_pos.
  - rewrite an_l. apply LineVerdict.lam_ge_an.
Qed.

Lemma eot_any k : (k = KSpaces -> tspace t 0 = false /\ Forall (fun r => r <> 0) text) -> holds_open k = false -> eot_answer (an k).
Proof.
  intros Hz Hk. unfold eot_answer. destruct k; try discriminate.
  - pose proof (WordVerdict.weot_safe (tw t) (tpict t) text) as [X _]. rewrite an_w. change (Words.CodePointClassFor (tw t) (tpict t)) with (wcls t) in X.
    rewrite last_one in X; [|intros Y; pose proof (an_any KWords) as L; rewrite an_w, Y in L; discriminate].
    revert X. unfold prim, row1. generalize (last (rows WordProofs.wnext WordProofs.wlam WordProofs.wpens (WordProofs.W0, 0) (map (wcls t) (text ++ [0]))) (0, [])). intros [l [|x u]]; cbn; lia.
  - destruct (Hz eq_refl) as [N0 Nz]. pose proof (an_any KSpaces) as L. cbn [new_breaker] in *. rewrite any_s in *. rewrite (an_simple (tspace t) N0 text Nz) in *.
    set (cs := map (SimpleWord.CodePointClassFor (tspace t)) text ++ [SimpleWord.eofType]) in *.
    assert (G : Forall (fun a : answer => hd 0 (snd a) = 0) (rows snext slam spens (SimpleWord.spaceType, 0) cs)).
    { apply Forall_forall. intros a Ia. apply (In_nth _ _ (0, [])) in Ia. destruct Ia as (n & Hn & <-). rewrite rows_len in Hn. rewrite rows_nth by auto. cbn [snd].
      unfold spens. destruct (_ =? _); [reflexivity|]. destruct (0 <? _); reflexivity. }
    rewrite Forall_forall in G. rewrite G; [lia|]. destruct (rows snext slam spens (SimpleWord.spaceType, 0) cs) as [|x u]; [discriminate|].
    destruct (exists_last (l := x :: u) ltac:(discriminate)) as (y & z & E). rewrite E, last_last. apply in_or_app. right. now left.
Qed.

(* at a CR all of them are settled at once *)
Lemma hot_lam k i : beside_lines t k text -> (S i < length text)%nat -> hot_of KLines i = true -> lam_after (an k) (S (S i)) <= 1.
Proof.
  intros [Hc Hn] Hi Hh.
  assert (Hr : lcl t (nth (S i) text 0) = Line.CR).
  { unfold hot_of in Hh. apply andb_prop in Hh. destruct Hh as [Hh _]. unfold hot_line in Hh. rewrite app_nth1 in Hh by (rewrite map_length; auto). apply Z.eqb_eq in Hh.
    rewrite (nth_indep _ 0 (lcl t 0)), map_nth in Hh by (rewrite map_length; auto). exact Hh. }
  pose proof (Hc (nth (S i) text 0) ltac:(now apply nth_In) Hr) as Hk. assert (Et : nth (S i) (text ++ [0]) 0 = nth (S i) text 0) by (now rewrite app_nth1).
  destruct k.
  - rewrite an_g. cbn [lam_after]. rewrite GraphemeProofs.gnth by (rewrite app_length; cbn; lia). cbn [fst].
    rewrite GraphemeProofs.ctx_S by (rewrite app_length; cbn; lia). rewrite Et. change (Grapheme.CodePointClassFor (tg t) (tpict t)) with (gcls t). rewrite Hk.
    cbn [GraphemeProofs.past_of]. unfold GraphemeProofs.pnext. rewrite Z.eqb_refl. cbn. lia.
  - rewrite an_w. cbn [lam_after]. rewrite rows_nth by (rewrite map_length, app_length; cbn; lia). cbn [fst].
    rewrite WordVerdict.run_state. rewrite WordVerdict.rev_firstn_S by (rewrite map_length, app_length; cbn; lia).
    rewrite (nth_indep _ 0 (wcls t 0)), map_nth by (rewrite map_length, app_length; cbn; lia). rewrite Et, Hk. cbn [WordVerdict.wb_of hd].
    unfold WordProofs.wbnext. change (Words.ignored Words.CR) with false. rewrite Z.eqb_refl. cbn. lia.
  - pose proof (d_hot _ _ _ _ decides_l i) as X. rewrite an_any in X. apply X; auto.
  - (* there is no break before a CR *)
    exfalso. specialize (Hn eq_refl). apply andb_prop in Hh. destruct Hh as [_ Hh]. unfold verdict_of in Hh.
    assert (Es : skipn (S i) text = nth (S i) text 0 :: skipn (S (S i)) text) by (apply skipn_nth; auto). rewrite Es in Hh.
    assert (Ef : skipn i text = nth i text 0 :: skipn (S i) text) by (apply skipn_nth; lia).
    rewrite WordVerdict.rev_firstn_S in Hh by lia. cbn [rules] in Hh. unfold LineAgree.line_break in Hh. cbn [map] in Hh.
    rewrite LineAgree.no_break_before in Hh; [discriminate| | |].
    + apply LineCor.lcls_in.
    + apply (Hn (firstn i text) (nth i text 0) (nth (S i) text 0) (skipn (S (S i)) text)); auto. rewrite <- Es, <- Ef. symmetry. apply firstn_skipn.
    + rewrite Hr. reflexivity.
Qed.
End Text.

Lemma two_slice t p s text n : fit t p s text -> zlen text < MaxInt -> (length text + 1 < n)%nat ->
  exists s1 outs s', InitFromSlice deque_ops text (NewSegmenter [new_breaker p; new_breaker s]) = Ok s1 /\ loop deque_ops (any_step t) n s1 = Ok (outs, true, s') /\
    map fst outs = segmentation (union (rules t p) (rules t s)) text /\ Err s' = None.
Proof.
  intros (Hp & Hs & Hz) Tt Hn. destruct (holds_open p || holds_open s) eqn:Hk.
  2:{ apply orb_false_iff in Hk. destruct Hk as [K1 K2].
    pose proof (decides_any t text p ltac:(tauto)) as D1. pose proof (decides_any t text s ltac:(tauto)) as D2.
    pose proof (eot_any t text p ltac:(tauto) K1) as E1. pose proof (eot_any t text s ltac:(tauto) K2) as E2.
    apply (late_slice (any_step t) (new_breaker p) (new_breaker s) text (verdict_of t text p) (verdict_of t text s) (rules t p) (rules t s) n Tt Hn); auto; destruct p, s; try discriminate; assumption. }
  apply (pair_slice (any_step t) (new_breaker p) (new_breaker s) text (verdict_of t text p) (verdict_of t text s) (hot_of t text p) (hot_of t text s)
    (rules t p) (rules t s) n Tt Hn); try (apply decides_any; tauto); try reflexivity.
  - apply orb_prop in Hk. destruct Hk as [Hk|Hk]; [left|right]; now apply lam_any.
  - intros i Hi Hh. destruct p; try discriminate. apply hot_lam; auto.
  - intros i Hi Hh. destruct s; try discriminate. apply hot_lam; auto.
Qed.
Lemma two_reader t p s its n : fit t p s (map fst its) ->
  Forall (fun it => 1 <= snd it) its -> sizes its < MaxInt -> (length its + 1 < n)%nat ->
  exists s1 outs s', Init deque_ops (mkrd its EOF) (NewSegmenter [new_breaker p; new_breaker s]) = Ok s1 /\ loop deque_ops (any_step t) n s1 = Ok (outs, true, s') /\
    map fst outs = map (firstn (Z.to_nat 4096)) (segmentation (union (rules t p) (rules t s)) (map fst its)) /\ Err s' = None.
Proof.
  intros (Hp & Hs & Hz) Sz Tt Hn. destruct (holds_open p || holds_open s) eqn:Hk.
  2:{ apply orb_false_iff in Hk. destruct Hk as [K1 K2].
    pose proof (decides_any t (map fst its) p ltac:(tauto)) as D1. pose proof (decides_any t (map fst its) s ltac:(tauto)) as D2.
    pose proof (eot_any t (map fst its) p ltac:(tauto) K1) as E1. pose proof (eot_any t (map fst its) s ltac:(tauto) K2) as E2.
    apply (late_reader (any_step t) (new_breaker p) (new_breaker s) its (verdict_of t (map fst its) p) (verdict_of t (map fst its) s)); auto; destruct p, s; try discriminate; assumption. }
  apply (pair_reader (any_step t) (new_breaker p) (new_breaker s) its (verdict_of t (map fst its) p) (verdict_of t (map fst its) s)
    (hot_of t (map fst its) p) (hot_of t (map fst its) s) (decides_any t (map fst its) p ltac:(tauto)) (decides_any t (map fst its) s ltac:(tauto))); auto.
  - apply orb_prop in Hk. destruct Hk as [Hk|Hk]; [left|right]; now apply lam_any.
  - intros i Hi Hh. destruct p; try discriminate. apply hot_lam; auto.
  - intros i Hi Hh. destruct s; try discriminate. apply hot_lam; auto.
Qed.
