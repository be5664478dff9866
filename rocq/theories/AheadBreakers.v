(* AheadBreakers.v -- graphemes and simple words: one rune is read ahead. *)
From Coq Require Import List ZArith Lia Bool.
From Verif Require Import Base RuneWrite Segmenter SegSim SegSpec PrioQProofs SegProofs SegInv SegNext SegCut SegFacade SegTheorems BreakSpec BreakFacade SegWeak Ahead.
From Verif Require Grapheme GraphemeSpec GraphemeProofs SimpleWord SimpleWordProofs.
Import ListNotations.
Open Scope Z_scope.

Section Prompt.
Context {B : Type} (bstep : B -> Z -> B * Z * list Z) (bs0 : list B) (its : list (Z * Z)) (z0 : bool * bool).
Notation mat := (mat bstep bs0 its EOF).
Notation lam_at := (lam_at bstep bs0 its EOF).
Notation F := (F bstep bs0 its EOF z0).
Notation Tf := (Tf bstep bs0 its EOF z0).
Context (conf : conforming (test0 bs0 z0) (ins its EOF) mat) (Es : eot_safe mat).
Context (lam_lo : forall k, (1 <= k <= length its)%nat -> 1 <= lam_at k).
Context (prompt : forall p, (p < length its)%nat -> Tf p = true -> lam_at (S (S p)) <= 1).
Lemma prompt_step k c k' i : (k = 0%nat /\ c = 0%nat) \/ k = S c -> (c <= k <= k')%nat -> (k' <= S (length its))%nat ->
  (forall j, (k <= j < k')%nat -> F j c = None) -> F k' c = Some i -> Tf (c + i) = true -> k' = S (c + S i).
Proof.
  intros HI C1 C2 J Fi Tp. assert (NL : N its EOF = S (length its)) by (rewrite N_len; lia).
  destruct (F_lt bstep bs0 its EOF z0 k' c i Fi) as [L1 L2]; [lia|lia|].
  pose proof (lam_at_nonneg bstep bs0 its EOF k') as L0.
  assert (P1 : (c + i < length its)%nat).
  { destruct (Nat.eq_dec (c + i) (length its)) as [E|]; [exfalso|lia]. rewrite E in Tp.
    rewrite (eot_not_break bstep bs0 its EOF z0 eq_refl Es) in Tp. discriminate. }
  assert (LO : (S (c + S i) <= k')%nat).
  { destruct (le_lt_dec k' (length its)) as [X|X]; [specialize (lam_lo k' ltac:(lia)); lia|lia]. }
  destruct (Nat.eq_dec k' (S (c + S i))) as [|NE]; [assumption|exfalso].
  specialize (prompt (c + i)%nat P1 Tp). replace (S (S (c + i))) with (S (c + S i)) in prompt by lia.
  assert (FN : F (S (c + S i)) c = None) by (apply J; lia).
  pose proof (F_None bstep bs0 its EOF z0 _ _ FN ltac:(lia) ltac:(lia) (c + i)%nat ltac:(lia) ltac:(lia)) as TN.
  rewrite (T_Tf bstep bs0 its EOF z0 conf) in TN by lia. congruence.
Qed.
End Prompt.

(* ---- graphemes ---- *)
Section Graphemes.
Import Grapheme GraphemeSpec GraphemeProofs.
Open Scope Z_scope.
Context (table : Z -> Z -> bool) (pict : Z -> bool) (its : list (Z * Z)).
Notation cls := (CodePointClassFor table pict).
Notation step := (gb_step table pict).
(* a match of two or more runes means that the newest rune belongs to the cluster before it *)
Lemma long_joins p a c l : In a classes -> In c classes -> 1 < plam (pnext (pnext p a) c) -> gb_boundary false (a :: l) c = false.
Proof.
  intros A C. unfold classes in A, C.
  repeat (destruct C as [<-|C]; [|]); [..|contradiction]; try (cbn; destruct (pnext p a); cbn; lia);
  repeat (destruct A as [<-|A]; [|]); try contradiction; try (intros _; reflexivity); cbn; destruct p; cbn; lia.
Qed.
Lemma gmat : mat step [Some NewBreaker] its EOF = map row1 (ganswers table pict [] (map fst its ++ [0])).
Proof. unfold mat. rewrite irunes_EOF. apply gmatrix. Qed.
Lemma glam k : (1 <= k <= S (length its))%nat -> lam_at step [Some NewBreaker] its EOF k = plam (past_of (ctx table pict (map fst its ++ [0]) k)).
Proof.
  intros K. destruct k as [|j]; [lia|]. unfold lam_at. rewrite gmat.
  assert (LJ : (j < length (map fst its ++ [0%Z]))%nat) by (rewrite app_length, map_length; cbn [length]; lia).
  rewrite (nth_indep _ [] (row1 (0, []))) by (rewrite map_length, ganswers_len; exact LJ). rewrite map_nth, gnth by exact LJ.
  rewrite longest_one. cbn [fst]. pose proof (plam_pos (past_of (ctx table pict (map fst its ++ [0]) (S j)))). lia.
Qed.
Lemma gprompt p : (p < length its)%nat -> Tf step [Some NewBreaker] its EOF (false, false) p = true -> lam_at step [Some NewBreaker] its EOF (S (S p)) <= 1.
Proof.
  intros P Tp. rewrite glam by lia. destruct (Z_le_gt_dec (plam (past_of (ctx table pict (map fst its ++ [0]) (S (S p))))) 1) as [|G]; [assumption|exfalso].
  unfold Tf in Tp. rewrite ins_EOF, gmat in Tp. change (test0 [Some NewBreaker] (false, false)) with (breakable (false, false) false) in Tp.
  set (rs := map fst its) in *. assert (LR : length rs = length its) by apply map_length.
  rewrite (test_pos rs _ 3) in Tp; [|apply ganswers_w|lia]. rewrite total3 in Tp.
  destruct (position table pict (rs ++ [0]) p) as [_ V2]; [rewrite app_length; cbn [length]; lia|]. rewrite V2 in Tp.
  rewrite ctx_S in G by (rewrite app_length; cbn [length]; lia). rewrite ctx_S in G, Tp by (rewrite app_length; cbn [length]; lia). cbn [past_of] in G.
  rewrite (long_joins _ _ _ _ (cls_range table pict _) (cls_range table pict _) (Z.gt_lt _ _ G)) in Tp. discriminate.
Qed.
Lemma grapheme_ahead n s1 outs s' : Forall (fun it => 1 <= snd it) its -> sizes its < MaxInt ->
  Init deque_ops (mkrd its EOF) (NewSegmenter [Some NewBreaker]) = Ok s1 -> loop deque_ops step n s1 = Ok (outs, false, s') -> (0 < n)%nat ->
  let segs := firstn n (segmentation (gb_break false cls) (map fst its)) in let c := length (concat segs) in
  map fst outs = map (firstn (Z.to_nat 4096)) segs /\ rdr s' = Some (mkrd (skipn (S c) its) EOF) /\ (c <= length its)%nat /\
  exists d, dq s' = Some d /\ q_len deque_ops d = 1.
Proof.
  intros Sz Tt I L Hn segs c.
  destruct (reads_ahead step (Some NewBreaker) its (segmentation (gb_break false cls) (map fst its))) with (Inv := fun k c : nat => k = S c) (n := n) (s1 := s1) (outs := outs) (s' := s') as (O & k & K1 & K2 & K3 & d & D1 & D2); auto.
  - rewrite gmatrix. apply conforming_weak, gconforming.
  - rewrite gmatrix. apply glast1.
  - apply spec_is_segmentation; rewrite gmatrix; [apply geot_safe|apply glast1|apply gverdict].
  - intros k c0 k' i H1 H2 H3 H4 H5 H6. apply (prompt_step step [Some NewBreaker] its (false, false)) with (k := k); auto.
    + rewrite ins_EOF, gmat. apply gconforming.
    + rewrite gmat. apply geot_safe.
    + intros k0 K. rewrite glam by lia. apply plam_pos.
    + apply gprompt.
  - fold segs in O, K1, K2, K3, D2. fold c in K1, K2, K3, D2. subst k. split; [exact O|]. split; [exact K2|]. split; [lia|]. exists d. split; [exact D1|]. rewrite D2. lia.
Qed.
End Graphemes.

(* ---- simple words ---- *)
Section Words.
Import SimpleWord SimpleWordProofs.
Open Scope Z_scope.
Context (isSpace : Z -> bool) (its : list (Z * Z)) (space0 : isSpace 0 = false) (NZ : Forall (fun r => r <> 0) (map fst its)).
Notation step := (swb_step isSpace).
Lemma smat : mat step [NewSimpleWordBreaker] its EOF = first_rows isSpace (map fst its).
Proof. unfold mat. rewrite irunes_EOF. apply matrix_first; auto. Qed.
Lemma rows_lam : forall l b n k, 0 < n -> (k < length l)%nat -> 1 <= longest (nth k (rows isSpace b n l) []).
Proof.
  induction l as [|r t IH]; intros b n k Pn K; [cbn [length] in K; lia|]. cbn [rows]. destruct (Bool.eqb (isSpace r) b); destruct k as [|k]; cbn [nth].
  - unfold longest. cbn. lia.
  - apply IH; [lia|cbn [length] in K; lia].
  - unfold longest. cbn. lia.
  - apply IH; [lia|cbn [length] in K; lia].
Qed.
(* where the class changes, the new match has length one *)
Lemma rows_prompt : forall t r o n p, 0 < n -> only1 (o :: rows isSpace (isSpace r) n t) -> sec o = (fun _ => 0) -> (p <= length t)%nat ->
  tst (nth p (marks isSpace r t) zeroAtom) = true -> longest (nth p (rows isSpace (isSpace r) n t) []) <= 1.
Proof.
  induction t as [|r' t IH]; intros r o n p Pn O S0 P TT.
  - cbn [length] in P. replace p with 0%nat by lia. unfold longest. cbn. lia.
  - cbn [marks rows] in *. destruct p as [|p]; cbn [nth] in *.
    + destruct (Bool.eqb (isSpace r') (isSpace r)); [discriminate|]. cbn [nth]. unfold longest. cbn. lia.
    + assert (O' : forall x m, only1 (x :: m) -> only1 m) by (intros x m H o' j I; apply H; simpl; auto).
      apply O' in O. destruct (Bool.eqb (isSpace r') (isSpace r)) eqn:E; cbn [nth].
      * apply Bool.eqb_prop in E. rewrite <- E in *. apply (IH r' _ (n + 1) p ltac:(lia) O); [reflexivity|cbn [length] in P; lia|exact TT].
      * apply (IH r' _ 1 p ltac:(lia) O); [reflexivity|cbn [length] in P; lia|exact TT].
Qed.
Lemma swb_ahead n s1 outs s' : Forall (fun it => 1 <= snd it) its -> sizes its < MaxInt ->
  Init deque_ops (mkrd its EOF) (NewSegmenter [NewSimpleWordBreaker]) = Ok s1 -> loop deque_ops step n s1 = Ok (outs, false, s') -> (0 < n)%nat ->
  let segs := firstn n (runs isSpace (map fst its)) in let c := length (concat segs) in
  map fst outs = map (firstn (Z.to_nat 4096)) segs /\ rdr s' = Some (mkrd (skipn (S c) its) EOF) /\ (c <= length its)%nat /\
  exists d, dq s' = Some d /\ q_len deque_ops d = 1.
Proof.
  intros Sz Tt I L Hn segs c. destruct (swb_cut isSpace space0 (map fst its) NZ) as (Ob & Es & C). cbv zeta in C.
  assert (CF : conforming (test0 [NewSimpleWordBreaker] (false, false)) (inputs (map fst its)) (matrix step [NewSimpleWordBreaker] (map fst its ++ [0]))).
  { apply strict_conf, obeys_strict, Ob. }
  assert (LL : longest (last (matrix step [NewSimpleWordBreaker] (map fst its ++ [0])) []) <= 1).
  { rewrite matrix_first by auto. destruct (map fst its) as [|r t]; [vm_compute; discriminate|]. cbn [first_rows].
    destruct (rows_cons_ok isSpace t (isSpace r) 1 ltac:(lia)) as (_ & _ & _ & _ & LS & LE).
    destruct (rows isSpace (isSpace r) 1 t) eqn:ER; [discriminate LE|]. change (last ([(1, [])] :: l :: l0) []) with (last (l :: l0) (@nil answer)). rewrite LS. lia. }
  destruct (reads_ahead step NewSimpleWordBreaker its (runs isSpace (map fst its))) with (Inv := fun k c : nat => k = S c) (n := n) (s1 := s1) (outs := outs) (s' := s') as (O & k & K1 & K2 & K3 & d & D1 & D2); auto.
  - apply conforming_weak, CF.
  - rewrite spec_impl. cbv zeta. change (test_of (false, false) [NewSimpleWordBreaker]) with tst. etransitivity; [exact (f_equal (map fst) C)|]. rewrite map_map. apply map_id.
  - intros k c0 k' i H1 H2 H3 H4 H5 H6. apply (prompt_step step [NewSimpleWordBreaker] its (false, false)) with (k := k); auto.
    + rewrite ins_EOF. unfold mat. rewrite irunes_EOF. exact CF.
    + unfold mat. rewrite irunes_EOF. exact Es.
    + intros k0 K. destruct k0 as [|j]; [lia|]. unfold lam_at. rewrite smat. destruct its as [|[r w] t]; [cbn [length] in K; lia|]. cbn [map fst first_rows].
      destruct j as [|j]; [unfold longest; cbn; lia|]. cbn [nth]. apply rows_lam; [lia|]. rewrite map_length. cbn [length] in K. lia.
    + intros p P TP. unfold lam_at. rewrite smat. unfold Tf in TP. rewrite ins_EOF, smat in TP. destruct its as [|[r w] t]; [cbn [length] in P; lia|]. cbn [map fst first_rows nth] in *.
      assert (O1 : only1 ([(1, [])] :: rows isSpace (isSpace r) 1 (map fst t))).
      { intros x j [<-|IN] J; [destruct j; reflexivity|]. apply (rows_cons_ok isSpace (map fst t) (isSpace r) 1 ltac:(lia)); auto. }
      apply (rows_prompt (map fst t) r [(1, [])] 1 p ltac:(lia) O1); [reflexivity|rewrite map_length; cbn [length] in P; lia|].
      rewrite <- (effs_marks isSpace (map fst t) r [(1, [])] 1 ltac:(lia) O1); [|reflexivity].
      rewrite effs_nth; [exact TP|]. cbn [length]. destruct (rows_cons_ok isSpace (map fst t) (isSpace r) 1 ltac:(lia)) as (_ & _ & _ & _ & _ & LE). rewrite LE, map_length. cbn [length] in P. lia.
  - fold segs in O, K1, K2, K3, D2. fold c in K1, K2, K3, D2. subst k. split; [exact O|]. split; [exact K2|]. split; [lia|]. exists d. split; [exact D1|]. rewrite D2. lia.
Qed.
End Words.
