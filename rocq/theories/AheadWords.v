(* AheadWords.v -- words: what is read ahead, except for its first and its last rune, is ignored by rule WB4. *)
From Coq Require Import List ZArith Lia Bool.
From Verif Require Import Base RuneWrite Segmenter SegSim SegSpec PrioQProofs SegProofs SegInv SegNext SegCut SegFacade SegTheorems BreakSpec BreakFacade SegWeak Rows Ahead.
From Verif Require Import Words WordProofs WordSpec WordVerdict.
Import ListNotations.
Open Scope Z_scope.

(* ---- the runes of a match ---- *)
Definition simple_base (b : wbase) : bool := match b with WA _ | WH _ | WN _ | WX _ | WK _ | WR _ => true | _ => false end.
Lemma ign_newline c : ignored c = true -> newline c = false.
Proof.
  unfold ignored, newline. destruct (Z.eqb_spec c Extend) as [->|]; [reflexivity|]. destruct (Z.eqb_spec c Format) as [->|]; [reflexivity|].
  destruct (Z.eqb_spec c ZWJ) as [->|]; [reflexivity|discriminate].
Qed.
Lemma next_ign b c : ignored c = true -> base_len (wbnext b c) = 0 \/ (base_len (wbnext b c) = base_len b + 1 /\ simple_base (wbnext b c) = simple_base b /\ b <> WCR).
Proof. intros E. unfold wbnext. rewrite E. destruct b; cbn; auto; right; repeat split; discriminate. Qed.
Lemma next_not b c : In c classes -> ignored c = false -> (base_len (wbnext b c) <= 1 /\ (wbnext b c = WCR \/ base_len (wbnext b c) = 0 \/ newline c = false)) \/
  (simple_base b = true /\ simple_base (wbnext b c) = false /\ base_len (wbnext b c) = base_len b + 1 /\ newline c = false).
Proof.
  intros C E. unfold classes in C.
  repeat (destruct C as [<-|C]; [first [discriminate E | destruct b; cbn; first [left; split; [lia|auto]; fail | right; auto] ]|]). contradiction.
Qed.
Lemma len_nonneg b : wvalid b -> 0 <= base_len b.
Proof. destruct b; cbn; lia. Qed.
(* every rune of a match is ignored, or everything behind it is, or it is the first one *)
Lemma match_ign : forall l i, cls_ok l -> (Z.of_nat i + 1 < base_len (wb_of l)) ->
  (simple_base (wb_of l) = true -> ignored (nth i l 0) = true) /\
  (ignored (nth i l 0) = true \/ forall j, (j < i)%nat -> ignored (nth j l 0) = true).
Proof.
  induction l as [|c t IH]; intros i Ok L; [cbn in L; lia|]. cbn [wb_of] in L |- *.
  pose proof (Forall_inv Ok) as Oc. pose proof (Forall_inv_tail Ok) as Ot. destruct (ignored c) eqn:E.
  - destruct (next_ign (wb_of t) c E) as [Z0|(L1 & S1 & _)]; [lia|]. destruct i as [|i]; cbn [nth]; [auto|].
    destruct (IH i Ot ltac:(lia)) as [A B]. rewrite S1. split; [exact A|]. destruct B as [B|B]; [auto|right]. intros [|j] Hj; cbn [nth]; [exact E|apply B; lia].
  - destruct (next_not (wb_of t) c Oc E) as [[Z0 _]|(S0 & S1 & L1 & _)]; [lia|]. rewrite S1. split; [discriminate|]. destruct i as [|i]; cbn [nth]; [right; intros; lia|left].
    apply IH; auto. lia.
Qed.
Lemma match_newline : forall l i, cls_ok l -> Z.of_nat i < base_len (wb_of l) -> wb_of l <> WCR -> newline (nth i l 0) = false.
Proof.
  induction l as [|c t IH]; intros i Ok L N; [cbn in L; lia|]. cbn [wb_of] in L, N |- *.
  pose proof (Forall_inv Ok) as Oc. pose proof (Forall_inv_tail Ok) as Ot. destruct (ignored c) eqn:E.
  - destruct (next_ign (wb_of t) c E) as [Z0|(L1 & _ & NC)]; [lia|]. destruct i as [|i]; cbn [nth]; [now apply ign_newline|]. apply IH; auto; lia.
  - destruct (next_not (wb_of t) c Oc E) as [[Z0 [X|[X|X]]]|(S0 & S1 & L1 & X)]; [congruence|lia| |].
    + destruct i as [|i]; cbn [nth]; [exact X|lia].
    + destruct i as [|i]; cbn [nth]; [exact X|]. apply IH; auto; [lia|]. intros Q. rewrite Q in S0. discriminate.
Qed.
(* no boundary before an ignored rune, unless after a newline *)
Lemma wb4 adj a l c r : newline a = false -> ignored c = true -> wb_boundary adj (a :: l) (c :: r) = false.
Proof.
  intros N I. pose proof (ign_newline c I) as Nc. unfold wb_boundary. rewrite N, Nc. rewrite extend_ign, I.
  destruct ((a =? CR) && (c =? LF)); [reflexivity|]. destruct ((a =? ZWJ) && (c =? Pictographic)); [reflexivity|]. destruct ((a =? WSegSpace) && (c =? WSegSpace)); reflexivity.
Qed.

Section Words.
Context (table : Z -> Z -> bool) (pict : Z -> bool) (its : list (Z * Z)).
Notation cls := (CodePointClassFor table pict).
Notation step := (wb_step table pict).
Notation text := (map fst its).
Notation cs := (map cls (text ++ [0])).
Notation an := (rows wnext wlam wpens (W0, 0) cs).
Notation bs0 := [Some NewWordBreaker].
Notation lam_at := (lam_at step bs0 its EOF).
Notation F := (F step bs0 its EOF (false, false)).
Notation Tf := (Tf step bs0 its EOF (false, false)).
Notation T := (T step bs0 its EOF (false, false)).
Context (w : nat) (Hw : Forall (fun a : answer => (length (snd a) <= w)%nat) an).

Lemma wmat : mat step bs0 its EOF = map row1 an.
Proof. unfold mat. rewrite irunes_EOF. apply wmatrix. Qed.
Lemma clen : length cs = Datatypes.S (length its).
Proof. rewrite map_length, app_length, map_length. cbn [length]. lia. Qed.
Lemma wlam_at k : (1 <= k <= Datatypes.S (length its))%nat -> lam_at k = wlam (run wnext (W0, 0) (firstn k cs)).
Proof.
  intros K. destruct k as [|j]; [lia|]. unfold SegInv.lam_at. rewrite wmat. pose proof clen as LC.
  rewrite (nth_indep _ [] (row1 (0, []))) by (rewrite map_length, rows_len; lia). rewrite map_nth, rows_nth by lia. rewrite longest_one. cbn [fst].
  rewrite run_state. unfold wlam. cbn [fst snd]. pose proof (len_nonneg _ (wb_valid (rev (firstn (Datatypes.S j) cs)))). lia.
Qed.

(* once three more runes are read and the position is settled, its verdict is final *)
Lemma late_final k p : (p + 3 <= k)%nat -> (k <= length its)%nat -> Z.of_nat p < Z.of_nat k - lam_at k -> T k p = Tf p.
Proof.
  intros P K St. unfold SegNext.T, SegCut.Tf. rewrite ins_EOF, wmat. change (test0 bs0 (false, false)) with (breakable (false, false) false).
  assert (Hw' : Forall (fun a : answer => (length (snd a) <= w)%nat) (firstn k an)).
  { apply Forall_forall. intros a Ia. rewrite Forall_forall in Hw. apply Hw. rewrite <- (firstn_skipn k an). apply in_or_app. auto. }
  rewrite firstn_map. rewrite !(test_pos text _ w) by (auto; rewrite map_length; lia). f_equal.
  rewrite (total_more wnext wlam wpens cs (W0, 0) w p k) by (try rewrite clen; try lia; exact Hw). rewrite run_state.
  rewrite wlam_at, run_state in St by lia. unfold wlam in St. cbn [fst snd] in St.
  rewrite late_inert; [lia|lia|apply wb_valid|]. pose proof (wb_valid (rev (firstn k cs))) as V. revert V St.
  destruct (wb_of (rev (firstn k cs))); cbn [inert base_len wvalid]; intros V St; auto; lia.
Qed.

Definition quiet (k c : nat) : Prop := (c <= k)%nat /\ forall j, (c < j)%nat -> (Datatypes.S j < k)%nat -> ignored (cls (nth j text 0)) = true.
Lemma quiet_step k c k' i : (k = 0%nat /\ c = 0%nat) \/ quiet k c -> (c <= k <= k')%nat -> (k' <= Datatypes.S (length its))%nat ->
  (forall j, (k <= j < k')%nat -> F j c = None) -> F k' c = Some i -> Tf (c + i) = true -> quiet k' (c + Datatypes.S i)%nat.
Proof.
  intros HI C1 C2 J Fi Tp. assert (NL : N its EOF = Datatypes.S (length its)) by (rewrite N_len; lia).
  destruct (F_lt step bs0 its EOF (false, false) k' c i Fi) as [L1 L2]; [lia|lia|].
  pose proof (lam_at_nonneg step bs0 its EOF k') as L0. split; [lia|]. intros j J1 J2.
  destruct (Nat.eq_dec k k') as [E|NE].
  { destruct HI as [[-> _]|[_ Q]]; [lia|]. apply Q; lia. }
  set (p := (c + i)%nat) in *. assert (FN : F (k' - 1) c = None) by (apply J; lia).
  assert (PL : (p < length its)%nat) by lia.
  destruct (Z_lt_le_dec (Z.of_nat p) (Z.of_nat (k' - 1) - lam_at (k' - 1))) as [St|Un].
  { pose proof (F_None step bs0 its EOF (false, false) _ _ FN ltac:(lia) ltac:(lia) p ltac:(lia) ltac:(lia)) as TN.
    rewrite late_final in TN by lia. congruence. }
  rewrite wlam_at, run_state in Un by lia. unfold wlam in Un. cbn [fst snd] in Un.
  set (l := rev (firstn (k' - 1) cs)) in *. assert (BL : Z.of_nat (k' - 1 - p) <= base_len (wb_of l)) by (destruct (hd 0 l =? ZWJ); lia).
  assert (Ok : cls_ok l) by apply cs_firstn_ok.
  assert (NthL : forall q, (q < k' - 1)%nat -> nth (k' - 2 - q) l 0 = nth q cs 0).
  { intros q Q. unfold l. pose proof clen. rewrite rev_nth by (rewrite firstn_length; lia). rewrite firstn_length, Nat.min_l by lia.
    replace (k' - 1 - Datatypes.S (k' - 2 - q))%nat with q by lia. apply nth_firstn. lia. }
  assert (NC : wb_of l <> WCR) by (intros Q; rewrite Q in BL; cbn in BL; lia).
  assert (V : wb_boundary true (rev (firstn (Datatypes.S p) cs)) (skipn (Datatypes.S p) cs) = true).
  { rewrite <- (total_verdict table pict text w Hw p) by (rewrite clen; lia). rewrite <- (test_pos text _ w) by (auto; rewrite map_length; lia).
    unfold SegCut.Tf in Tp. rewrite ins_EOF, wmat in Tp. exact Tp. }
  pose proof clen as CL. rewrite rev_firstn_S in V by lia. rewrite (skipn_cons cs (Datatypes.S p)) in V by lia.
  destruct (match_ign l (k' - 2 - Datatypes.S p) Ok ltac:(lia)) as [_ [X|X]].
  - exfalso. rewrite NthL in X by lia. rewrite wb4 in V; [discriminate| |exact X]. rewrite <- NthL by lia. apply match_newline; auto. lia.
  - specialize (X (k' - 2 - j)%nat ltac:(lia)). rewrite NthL in X by lia. rewrite (nth_indep _ 0 (cls 0)) in X by lia. rewrite map_nth in X.
    rewrite app_nth1 in X by (rewrite map_length; lia). exact X.
Qed.
End Words.

Lemma word_ahead table pict its n s1 outs s' : Forall (fun it => 1 <= snd it) its -> sizes its < MaxInt ->
  Init deque_ops (mkrd its EOF) (NewSegmenter [Some NewWordBreaker]) = Ok s1 -> loop deque_ops (wb_step table pict) n s1 = Ok (outs, false, s') -> (0 < n)%nat ->
  let segs := firstn n (segmentation (wb_break true (CodePointClassFor table pict)) (map fst its)) in let c := length (concat segs) in
  map fst outs = map (firstn (Z.to_nat 4096)) segs /\
  exists k d, rdr s' = Some (mkrd (skipn k its) EOF) /\ (c <= k <= S (length its))%nat /\ dq s' = Some d /\ q_len deque_ops d = Z.of_nat (k - c) /\
    forall j, (c < j)%nat -> (S j < k)%nat -> ignored (CodePointClassFor table pict (nth j (map fst its) 0)) = true.
Proof.
  intros Sz Tt I L Hn segs c. set (text := map fst its) in *.
  destruct (rows_width wnext wlam wpens (map (CodePointClassFor table pict) (text ++ [0])) (W0, 0)) as [w Hw].
  destruct (reads_ahead (wb_step table pict) (Some NewWordBreaker) its (segmentation (wb_break true (CodePointClassFor table pict)) text)) with (Inv := quiet table pict its) (n := n) (s1 := s1) (outs := outs) (s' := s') as (O & k & K1 & K2 & K3 & d & D1 & D2); auto.
  - fold text. rewrite wmatrix. apply (wconforming table pict text w Hw).
  - fold text. rewrite wmatrix. apply wlast1.
  - apply spec_is_segmentation; rewrite wmatrix; [apply weot_safe|apply wlast1|apply (wverdict table pict text w Hw)].
  - intros. now apply (quiet_step table pict its w Hw k c0 k' i).
  - split; [exact O|]. exists k, d. destruct K1 as [_ Q]. auto.
Qed.
