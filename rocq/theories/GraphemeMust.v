(* GraphemeMust.v -- the penalties of grapheme cluster breaks. *)
From Coq Require Import List ZArith Lia Bool.
From Verif Require Import Base PrioQ PrioQProofs Recognizer Segmenter SegSpec SegProofs SegInv SegNext SegCut SegFacade BreakSpec BreakFacade SegEager SegPair SegPens Grapheme GraphemeSpec GraphemeProofs LineSettled LineMustSpec LineMust.
Import ListNotations.
Open Scope Z_scope.

(* penalty between the classes a and c, p the past of a *)
Definition gpen (p : past) (a c : Z) : Z := pfirst p a + psecond (pnext p a) c.
Lemma gpen_facts p a c : In a classes -> In c classes -> ok_pen (gpen p a c) = true ->
  reported (gpen p a c) = (newline_or_control a || is_one_of c [LF; Control]) /\
  (reported (gpen p a c) = false -> gpen p a c = if a =? Prepend then 9990 else -10).
Proof.
  intros Ha Hc. unfold classes in Ha, Hc.
  repeat (destruct Ha as [<-|Ha]; [destruct p; repeat (destruct Hc as [<-|Hc]; [vm_compute; intros K; first [discriminate K|(split; [reflexivity|intros R; first [reflexivity|discriminate R]])]|]); contradiction|]).
  contradiction.
Qed.

Section Text.
Context (table : Z -> Z -> bool) (pict : Z -> bool) (text : list Z).
Notation cls := (CodePointClassFor table pict).
Notation an := (ganswers table pict [] (text ++ [0])).
Notation ctx := (GraphemeProofs.ctx table pict).
Definition GV (i : nat) : bool := match skipn (S i) text with [] => true | t => gb_break false cls (rev (firstn (S i) text)) t end.
Definition GP (i : nat) : Z := gpen (past_of (ctx (text ++ [0]) i)) (cls (nth i (text ++ [0]) 0)) (cls (nth (S i) (text ++ [0]) 0)).
Lemma lam_g k : (k <= length an)%nat -> (match k with O => 0 | S j => Z.max (fst (nth j an (0, []))) 0 end) = match k with O => 0 | S _ => plam (past_of (ctx (text ++ [0]) k)) end.
Proof.
  intros Hk. rewrite ganswers_len in Hk. destruct k as [|j]; [reflexivity|]. rewrite gnth by lia. cbn [fst]. pose proof (plam_pos (past_of (ctx (text ++ [0]) (S j)))). lia.
Qed.
Lemma settled_g k i : (k <= length an)%nat -> Z.of_nat i < Z.of_nat k - (match k with O => 0 | S j => Z.max (fst (nth j an (0, []))) 0 end) -> (S (S i) <= k)%nat /\ (i < length text)%nat.
Proof.
  intros Hk Hs. rewrite lam_g in Hs by auto. rewrite ganswers_len, app_length in Hk. cbn [length] in Hk. destruct k as [|j]; [lia|].
  pose proof (plam_pos (past_of (ctx (text ++ [0]) (S j)))). lia.
Qed.
Lemma eager_g : eager_answers text an GV.
Proof.
  assert (E : forall k i, (k <= length an)%nat -> Z.of_nat i < Z.of_nat k - (match k with O => 0 | S j => Z.max (fst (nth j an (0, []))) 0 end) ->
    breakable (false, false) false (eff (inputs text) (map row1 (firstn k an)) i) = GV i).
  { intros k i Hk Hs. destruct (settled_g k i Hk Hs) as [H1 H2]. rewrite <- firstn_map, (gconforming table pict text k i), (gverdict table pict text i); auto.
    - rewrite map_length. lia.
    - unfold settled. rewrite (nth_indep _ [] (row1 (0, []))) by (rewrite map_length; lia). rewrite map_nth, longest_one. destruct k as [|j]; [lia|].
      rewrite Nat.sub_succ, Nat.sub_0_r. exact Hs. }
  split.
  - intros k i Hk Hs T. now rewrite <- (E k i).
  - intros k i Hk Hs _ T. now rewrite (E k i).
Qed.
Lemma lam_ge_g : Forall (fun a : answer => 1 <= fst a) an.
Proof.
  apply Forall_forall. intros a Ha. destruct (In_nth _ _ (0, []) Ha) as (j & Hj & <-). rewrite ganswers_len in Hj. rewrite gnth by auto. apply plam_pos.
Qed.
Lemma lam_last_g : fst (last an (0, [])) <= 1.
Proof.
  pose proof (glast1 table pict text) as L. rewrite last_one in L by apply an_ne. rewrite longest_one in L. lia.
Qed.
Lemma pens_g : pens_answers text an GV GP.
Proof.
  intros k i Hk Hs Mn V. destruct (settled_g k i Hk Hs) as [H1 H2]. rewrite ganswers_len, app_length in Hk. cbn [length] in Hk.
  rewrite (ap0_total text _ 3) by (auto; apply Forall_forall; intros a Ia; pose proof (ganswers_w table pict (text ++ [0]) []) as W; rewrite Forall_forall in W; apply W;
    rewrite <- (firstn_skipn k an); apply in_or_app; auto).
  rewrite total3, !pen_prefix. replace (i + 0 <? k)%nat with true by (symmetry; apply Nat.ltb_lt; lia). replace (i + 1 <? k)%nat with true by (symmetry; apply Nat.ltb_lt; lia).
  assert (La : length (text ++ [0]) = S (length text)) by (rewrite app_length; cbn; lia).
  rewrite pen_0, pen_1 by lia. unfold GP, gpen. cbn [past_of]. destruct (Nat.ltb_spec (i + 2) k) as [K|K]; [|lia].
  rewrite pen_2 by lia. destruct (third_CR (past_of (cls (nth i (text ++ [0]) 0) :: ctx (text ++ [0]) i)) (cls (nth (S i) (text ++ [0]) 0)) (cls (nth (S (S i)) (text ++ [0]) 0))) as [->|[E _]].
  - cbn [nth]. lia.
  - exfalso. apply (Mn (S (S i)) ltac:(lia)). rewrite gnth by lia. cbn [fst]. rewrite ctx_S by lia. cbn [past_of]. rewrite E. unfold pnext. change (CR =? CR) with true. cbn [plam]. lia.
Qed.
Lemma GP_facts i : (i < length text)%nat -> GV i = true ->
  let a := cls (nth i text 0) in let c := match skipn (S i) text with [] => eot | r :: _ => cls r end in
  reported (GP i) = (newline_or_control a || is_one_of c [LF; Control]) /\ (reported (GP i) = false -> GP i = if a =? Prepend then 9990 else -10).
Proof.
  intros Hi V a c. assert (La : length (text ++ [0]) = S (length text)) by (rewrite app_length; cbn; lia).
  assert (Ea : cls (nth i (text ++ [0]) 0) = a) by (rewrite app_nth1 by auto; reflexivity).
  assert (Ec : cls (nth (S i) (text ++ [0]) 0) = c).
  { unfold c. destruct (le_lt_dec (length text) (S i)).
    - rewrite skipn_all2 by auto. rewrite app_nth2 by auto. replace (S i - length text)%nat with 0%nat by lia. reflexivity.
    - rewrite app_nth1 by auto. rewrite LineSettled.skipn_nth by auto. reflexivity. }
  unfold GP. rewrite Ea, Ec. apply gpen_facts.
  - rewrite <- Ea. apply cls_range.
  - rewrite <- Ec. apply cls_range.
  - unfold GV in V. rewrite <- (gverdict table pict text i Hi), (test_pos text an 3), total3 in V by (auto; apply ganswers_w).
    destruct (position table pict (text ++ [0]) i ltac:(lia)) as [P1 P2]. rewrite P2, <- P1, pen_0, pen_1, Ea, Ec in V by lia. exact V.
Qed.
End Text.

Lemma grapheme_pens table pict text n : zlen text < MaxInt -> (length text + 1 < n)%nat ->
  exists s1 outs s', InitFromSlice deque_ops text (NewSegmenter [Some NewBreaker]) = Ok s1 /\ loop deque_ops (gb_step table pict) n s1 = Ok (outs, true, s') /\
    map (fun o => (fst o, fst (snd o))) outs = pcut (GV table pict text) (GP table pict text) 0 text [] /\ Err s' = None.
Proof.
  intros Tt Hn. apply pens_slice; auto; rewrite answers_new; [apply eager_g|apply lam_ge_g|apply lam_last_g|apply pens_g].
Qed.
Lemma grapheme_pens_reader table pict its n : Forall (fun it => 1 <= snd it) its -> sizes its < MaxInt -> (length its + 1 < n)%nat ->
  let text := map fst its in
  exists s1 outs s', Init deque_ops (mkrd its EOF) (NewSegmenter [Some NewBreaker]) = Ok s1 /\ loop deque_ops (gb_step table pict) n s1 = Ok (outs, true, s') /\
    map (fun o => (fst o, fst (snd o))) outs = map (fun x => (firstn (Z.to_nat 4096) (fst x), snd x)) (pcut (GV table pict text) (GP table pict text) 0 text []) /\ Err s' = None.
Proof.
  cbv zeta. intros Sz Tt Hn. apply pens_reader; auto; rewrite answers_new; [apply eager_g|apply lam_ge_g|apply lam_last_g|apply pens_g].
Qed.
