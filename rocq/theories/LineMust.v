(* LineMust.v -- the penalties of line breaks. *)
From Coq Require Import List ZArith Lia Bool.
From Verif Require Import Base PrioQ PrioQProofs Recognizer Segmenter SegSpec SegProofs SegInv SegNext SegCut SegFacade BreakSpec BreakFacade Rows SegEager SegPair SegPens Line LineSum LineVerdict LineSettled LineSpec LineCor LineAgree LineMustSpec.
Import ListNotations.
Open Scope Z_scope.

Definition pen_of (f : fstate) (b : Z) : Z := after f + before f b 0.
Lemma total2_pen s b : sok s -> In b rclasses -> base (fst s) b = true -> total2 s b = pen_of (fst s) b.
Proof.
  intros Hs Hr Hb. pose proof Hs as (Hf & _ & H0 & _). unfold total2, pen_of. destruct (moves (fph (fst s)) (fcl (fst s) b)) eqn:M; [rewrite nsum_moves by auto; reflexivity|].
  rewrite nsum_1 by auto. destruct (one_of (fph (fst s)) [4; 5] && one_of (fcl (fst s) b) [PR; PO]) eqn:E; [|rewrite Z.mul_0_l; reflexivity].
  exfalso. unfold base in Hb. rewrite E in Hb. pose proof (fin_1 (fst s) b ltac:(assumption) ltac:(assumption)) as X. apply orb_prop in X; destruct X as [X|X]; [rewrite E in X; discriminate X|].
  apply andb_prop in X. destruct X as [X Y]. apply Z.eqb_eq in X. apply Z.leb_le in Y. rewrite X in Hb. unfold before in Hb. cbv zeta in Hb.
  destruct (Z.eqb_spec (fsum (fst s) b 1 + 4) 0); [lia|]. pose proof (lift1_big (fsum (fst s) b 1 + 4) ltac:(lia)). apply ok_pen_iff in Hb. lia.
Qed.

(* what the state remembers of the last two runes *)
Lemma fa_hard f rc : In f feats -> In rc rclasses -> one_of (fa (fnext f rc)) hard = one_of rc hard /\ (one_of rc hard = true -> fa (fnext f rc) = rc) /\
  fcrlf (fnext f rc) = ((fa f =? CR) && (rc =? LF)).
Proof.
  intros Hf Hr. set (P := fun f rc => Bool.eqb (one_of (fa (fnext f rc)) hard) (one_of rc hard) && (negb (one_of rc hard) || (fa (fnext f rc) =? rc)) &&
    Bool.eqb (fcrlf (fnext f rc)) ((fa f =? CR) && (rc =? LF))).
  assert (X : P f rc = true) by finite P. unfold P in X. rewrite !andb_true_iff in X. destruct X as ((A & B) & C). apply eqb_prop in A, C. split; auto. split; auto.
  intros H. rewrite H in B. now apply Z.eqb_eq in B.
Qed.
Lemma pen_optional f b : In f feats -> In b rclasses -> base f b = true -> one_of (fa f) hard = false -> b <> eot -> -1000 < pen_of f b.
Proof.
  intros Hf Hr Hb Hh Ne. set (P := fun f b => negb (base f b) || one_of (fa f) hard || (b =? eot) || (-1000 <? pen_of f b)).
  assert (X : P f b = true) by finite P. unfold P in X. apply Z.eqb_neq in Ne. rewrite Hb, Hh, Ne in X. now apply Z.ltb_lt in X.
Qed.
Lemma pen_hard f b : In f feats -> In b rclasses -> base f b = true -> one_of (fa f) hard = true ->
  reported (pen_of f b) = if fa f =? CR then negb (one_of b never_before) else fcrlf f || negb (one_of b rarely_before).
Proof.
  intros Hf Hr Hb Hh. set (P := fun f b => negb (base f b) || negb (one_of (fa f) hard) ||
    Bool.eqb (reported (pen_of f b)) (if fa f =? CR then negb (one_of b never_before) else fcrlf f || negb (one_of b rarely_before))).
  assert (X : P f b = true) by finite P. unfold P in X. rewrite Hb, Hh in X. now apply eqb_prop in X.
Qed.
Lemma eot_in : In eot rclasses.
Proof. apply in_dec. reflexivity. Qed.
Lemma pen_end f : In f feats -> base f eot = true /\ pen_of f eot < -8000.
Proof.
  intros Hf. pose proof eot_in as He. set (P := fun f b => negb (b =? eot) || (base f b && (pen_of f b <? -8000))). assert (X : P f eot = true) by finite P. unfold P in X.
  change (eot =? eot) with true in X. cbn [negb orb] in X. apply andb_prop in X. destruct X as [A C]. split; [auto|now apply Z.ltb_lt in C].
Qed.
Lemma pen_end_seen f rc : In f feats -> In rc rclasses -> one_of rc hides_end = false -> reported (pen_of (fnext f rc) eot) = true.
Proof.
  intros Hf Hr Hh. set (P := fun f b => one_of b hides_end || reported (pen_of (fnext f b) eot)). assert (X : P f rc = true) by finite P. unfold P in X. now rewrite Hh in X.
Qed.

Section Text.
Context (cs : list Z) (Hcs : Forall (fun c => In c rclasses) cs).
Notation an := (rows lnext llam lpens st0 (cs ++ [eot])).
Notation all := (cs ++ [eot]).
Notation sat := (LineVerdict.sat cs).
Definition LP (i : nat) : Z := pen_of (fst (sat (S i))) (nth (S i) all 0).
Lemma ap0_total rs (a : list answer) w i : Forall (fun x : answer => (length (snd x) <= w)%nat) a -> (i < length rs)%nat -> ap0 (eff (inputs rs) (map row1 a) i) = total a w i.
Proof.
  intros Hw Hi. unfold eff. cbn [ap0]. rewrite (column_total _ w) by auto.
  assert (E : nth i (inputs rs) zeroAtom = mkatom (nth i rs 0) 0 0).
  { unfold inputs. rewrite app_nth1 by (rewrite map_length; auto). rewrite (nth_indep _ zeroAtom (mkatom 0 0 0)) by (rewrite map_length; auto).
    rewrite (map_nth (fun r => mkatom r 0 0)). reflexivity. }
  rewrite E. cbn [ap0]. lia.
Qed.
Lemma pens_line text : length text = length cs -> pens_answers text an (LV cs) LP.
Proof.
  intros Lt k i Hk Hs Mn V. destruct (rows_width lnext llam lpens all st0) as (w & Hw).
  assert (La : length all = S (length cs)) by (rewrite app_length; cbn; lia). pose proof (len_an cs) as Ln.
  assert (Hi : (S (S i) <= k)%nat).
  { destruct k as [|j]; [lia|]. rewrite (lam_an cs) in Hs by lia. unfold llam in Hs. lia. }
  rewrite (ap0_total text _ w), (total_at cs Hcs w) by (try (rewrite ?La; lia); auto;
    apply Forall_forall; intros a Ia; rewrite Forall_forall in Hw; apply Hw; rewrite <- (firstn_skipn k an); apply in_or_app; auto).
  rewrite (late_break cs Hcs); auto; try lia.
  - rewrite Z.add_0_r. unfold LP. apply total2_pen; [apply sat_ok; auto|apply nth_ok; auto; lia|]. unfold LV in V. apply verdict_iff in V. apply V.
  - destruct (Nat.eq_dec k (S (S i))) as [|Nk]; [auto|right]. intros E. apply (Mn (S (S i))); [lia|]. rewrite (lam_an cs) by lia. rewrite (lam_CR cs) by (auto; lia). lia.
Qed.
(* the penalty, seen from the classes *)
Lemma LP_facts i : (i < length cs)%nat -> LV cs i = true ->
  let l := rev (firstn (S i) cs) in let r := skipn (S i) cs in
  (mandatory l r = false -> -1000 < LP i) /\
  (next_class r <> eot -> reported (LP i) = seen_hard l (next_class r)) /\
  (next_class r = eot -> LP i < -8000 /\ (one_of (next_class l) hides_end = false -> reported (LP i) = true)).
Proof.
  intros Hi V l r. assert (La : length all = S (length cs)) by (rewrite app_length; cbn; lia).
  assert (Er : nth (S i) all 0 = next_class r).
  { unfold r. destruct (le_lt_dec (length cs) (S i)).
    - rewrite skipn_all2 by auto. cbn [next_class]. rewrite app_nth2 by auto. replace (S i - length cs)%nat with 0%nat by lia. reflexivity.
    - rewrite app_nth1 by auto. rewrite skipn_nth by auto. reflexivity. }
  assert (Sl : forall j, (j < length cs)%nat -> rev (firstn (S j) cs) = nth j cs 0 :: rev (firstn j cs)).
  { intros j Hj. rewrite (firstn_snoc cs j 0 Hj), rev_app_distr. reflexivity. }
  assert (El : l = nth i cs 0 :: rev (firstn i cs)) by (apply Sl; auto).
  assert (Na : nth i all 0 = nth i cs 0) by (rewrite app_nth1 by auto; reflexivity).
  pose proof (sat_ok cs Hcs i) as Ok0. pose proof (sat_ok cs Hcs (S i)) as Ok1. pose proof (nth_ok cs Hcs i ltac:(lia)) as N0. pose proof (nth_ok cs Hcs (S i) ltac:(lia)) as N1.
  assert (Ef : fst (sat (S i)) = fnext (fst (sat i)) (nth i cs 0)) by (rewrite sat_S, Na by lia; reflexivity). rewrite Na in N0. rewrite Er in N1.
  destruct (fa_hard (fst (sat i)) (nth i cs 0) (proj1 Ok0) N0) as (H1 & H2 & H3). rewrite <- Ef in H1, H2, H3.
  unfold LV in V. apply verdict_iff in V. destruct V as [Vb _]. rewrite Er in Vb. unfold LP. rewrite Er. set (f := fst (sat (S i))) in *.
  assert (Hf : In f feats) by apply Ok1. clearbody r. rewrite El. split; [|split].
  - unfold mandatory. intros M. apply orb_false_iff in M. destruct M as [M1 M2]. apply Z.eqb_neq in M1. apply pen_optional; auto. rewrite H1. auto.
  - intros Ne. unfold seen_hard. destruct (one_of (nth i cs 0) hard) eqn:Eh.
    + rewrite pen_hard by (auto; rewrite H1; auto). rewrite (H2 eq_refl). destruct (nth i cs 0 =? CR); [reflexivity|]. cbn [andb]. f_equal.
      rewrite H3. rewrite andb_comm. f_equal. destruct i as [|j].
      * reflexivity.
      * rewrite Sl by lia. cbn [next_class]. pose proof (sat_ok cs Hcs j) as Okj. pose proof (nth_ok cs Hcs j ltac:(lia)) as Nj.
        assert (Naj : nth j all 0 = nth j cs 0) by (rewrite app_nth1 by lia; reflexivity). rewrite Naj in Nj.
        destruct (fa_hard (fst (sat j)) (nth j cs 0) (proj1 Okj) Nj) as (G1 & G2 & _).
        assert (Ej : fst (sat (S j)) = fnext (fst (sat j)) (nth j cs 0)) by (rewrite sat_S, Naj by lia; reflexivity). rewrite <- Ej in G1, G2.
        destruct (one_of (nth j cs 0) hard) eqn:Ej'.
        -- rewrite G2; auto.
        -- destruct (Z.eqb_spec (nth j cs 0) CR) as [X|X]; [rewrite X in Ej'; discriminate|]. destruct (Z.eqb_spec (fa (fst (sat (S j)))) CR) as [Y|Y]; [rewrite Y in G1; discriminate|reflexivity].
    + destruct (Z.eqb_spec (nth i cs 0) CR) as [X|X]; [rewrite X in Eh; discriminate|]. cbn [andb].
      pose proof (pen_optional f (next_class r) Hf N1 Vb ltac:(rewrite H1; auto) Ne). unfold reported. destruct (Z.leb_spec (pen_of f (next_class r)) (-10000)); [lia|reflexivity].
  - intros E. rewrite E. split; [now apply pen_end|]. cbn [next_class]. intros Hh. rewrite Ef. apply pen_end_seen; auto. apply Ok0.
Qed.
End Text.

Lemma line_pens table comb text n : zlen text < MaxInt -> (length text + 1 < n)%nat ->
  exists s1 outs s', InitFromSlice deque_ops text (NewSegmenter [Some NewLineWrap]) = Ok s1 /\ loop deque_ops (lb_step table comb) n s1 = Ok (outs, true, s') /\
    map (fun o => (fst o, fst (snd o))) outs = pcut (LV (map (lcls table comb) text)) (LP (map (lcls table comb) text)) 0 text [] /\ Err s' = None.
Proof.
  intros Tt Hn. assert (E : answers (lb_step table comb) (Some NewLineWrap) (text ++ [0]) = rows lnext llam lpens st0 (map (lcls table comb) text ++ [eot])).
  { rewrite (line_rows _ _ _ _ _ st0_ok new_state), map_app. cbn [map]. rewrite lcls_0. reflexivity. }
  apply pens_slice; auto; try apply eager_text; rewrite E.
  - apply lam_ge_an.
  - apply lam_last_an.
  - apply pens_line; [apply classes_ok|now rewrite map_length].
Qed.
Lemma line_pens_reader table comb its n : Forall (fun it => 1 <= snd it) its -> sizes its < MaxInt -> (length its + 1 < n)%nat ->
  let text := map fst its in
  exists s1 outs s', Init deque_ops (mkrd its EOF) (NewSegmenter [Some NewLineWrap]) = Ok s1 /\ loop deque_ops (lb_step table comb) n s1 = Ok (outs, true, s') /\
    map (fun o => (fst o, fst (snd o))) outs = map (fun x => (firstn (Z.to_nat 4096) (fst x), snd x))
      (pcut (LV (map (lcls table comb) text)) (LP (map (lcls table comb) text)) 0 text []) /\ Err s' = None.
Proof.
  cbv zeta. intros Sz Tt Hn. set (text := map fst its).
  assert (E : answers (lb_step table comb) (Some NewLineWrap) (text ++ [0]) = rows lnext llam lpens st0 (map (lcls table comb) text ++ [eot])).
  { rewrite (line_rows _ _ _ _ _ st0_ok new_state), map_app. cbn [map]. rewrite lcls_0. reflexivity. }
  apply pens_reader; auto; try apply eager_text; fold text; rewrite E.
  - apply lam_ge_an.
  - apply lam_last_an.
  - apply pens_line; [apply classes_ok|now rewrite map_length].
Qed.
