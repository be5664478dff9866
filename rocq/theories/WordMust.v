(* WordMust.v -- the penalties of word breaks. *)
From Coq Require Import List ZArith Lia Bool.
From Verif Require Import Base PrioQ PrioQProofs Recognizer Words WordSpec WordProofs BreakSpec Segmenter SegSpec SegProofs SegInv SegNext SegFacade SegTheorems BreakFacade SegWeak Rows SegEager SegFirst LineMust WordVerdict.
Import ListNotations.
Open Scope Z_scope.

Definition lf_or_nl (c : Z) : bool := (c =? LF) || (c =? Newline).
(* the value of a permitted break between a and c; m: what comes later *)
Definition right_value (b : wbase) (a c m : Z) : bool :=
  let v := wfirst b a + wsecond (wbnext b a, a) c + m in
  implb (negb (lf_or_nl a) && ok_pen v) (Bool.eqb (v <=? -10000) (newline a || lf_or_nl c) && ((v <=? -10000) || (v =? 10))).
Lemma all_values : forallb (fun b => forallb (fun a => forallb (fun c => forallb (fun m => right_value b a c m) [0; 10000]) classes) classes) kbs = true.
Proof. vm_compute. reflexivity. Qed.
Lemma value_kb b a c m : right_value b a c m = right_value (kb b) a c m.
Proof.
  unfold right_value. cbn zeta.
  assert (E1 : wfirst (kb b) a = wfirst b a) by (destruct b; reflexivity).
  assert (E2 : forall u v p, kb u = kb v -> wsecond (u, p) c = wsecond (v, p) c).
  { intros u v p E. unfold wsecond. cbn [fst snd]. replace (wjoin u c) with (wjoin v c); [reflexivity|]. destruct u, v; try discriminate E; reflexivity. }
  rewrite E1. rewrite (E2 (wbnext (kb b) a) (wbnext b a)) by (rewrite (kb_next b a); reflexivity). reflexivity.
Qed.
Lemma value b a c m : In a classes -> In c classes -> m = 0 \/ m = 10000 -> lf_or_nl a = false ->
  let v := wfirst b a + wsecond (wbnext b a, a) c + m in ok_pen v = true -> (v <=? -10000) = (newline a || lf_or_nl c) /\ (v <= -10000 \/ v = 10).
Proof.
  intros Ha Hc Hm Na v Ov.
  assert (R : right_value b a c m = true).
  { rewrite value_kb. pose proof all_values as H. rewrite forallb_forall in H. specialize (H _ (kb_in b)). rewrite forallb_forall in H. specialize (H _ Ha).
    rewrite forallb_forall in H. specialize (H _ Hc). rewrite forallb_forall in H. apply H. destruct Hm; subst; simpl; auto. }
  unfold right_value in R. cbv zeta in R. fold v in R. rewrite Na, Ov in R. cbn [negb andb implb] in R. apply andb_prop in R. destruct R as [R1 R2].
  apply Bool.eqb_prop in R1. split; [auto|]. apply orb_prop in R2. destruct R2 as [R2|R2]; [left; now apply Z.leb_le|right; now apply Z.eqb_eq].
Qed.
Lemma later_value b c after : b <> WCR -> later b c after = 0 \/ later b c after = 10000.
Proof.
  intros H. unfold later. destruct b; auto; try congruence.
  - destruct (ignored c); auto. destruct (one _ _); auto.
  - destruct (ignored c); auto. destruct (one _ _); auto.
  - destruct after as [|d t]; auto. destruct (d =? Hebrew_Letter); auto.
Qed.
Lemma to_CR b c : wbnext b c = WCR -> c = CR.
Proof.
  unfold wbnext. destruct (ignored c); [destruct b; discriminate|]. destruct (Z.eqb_spec c CR) as [->|]; [reflexivity|].
  repeat match goal with |- (if ?x then _ else _) = _ -> _ => destruct x; [try discriminate|] end; try (destruct (is_WR b); discriminate).
  destruct b; try discriminate; repeat match goal with |- (if ?x then _ else _) = _ -> _ => destruct x; try discriminate end.
Qed.
Lemma after_CR b : wbnext b CR = WCR.
Proof. reflexivity. Qed.
Lemma after_nl b a : lf_or_nl a = true -> wbnext b a = W0 /\ (a =? ZWJ) = false /\ ok_pen (wfirst b a) = true /\ (wfirst b a <= -10000) /\ newline a = true.
Proof.
  unfold lf_or_nl. intros H. apply orb_prop in H. destruct H as [H|H]; apply Z.eqb_eq in H; subst a; destruct b; vm_compute; repeat split; discriminate.
Qed.

Section OneText.
Context (table : Z -> Z -> bool) (pict : Z -> bool) (rs : list Z).
Notation cls := (CodePointClassFor table pict).
Notation cs := (map cls (rs ++ [0])).
Notation an := (rows wnext wlam wpens (W0, 0) cs).
Context (w : nat) (Hw : Forall (fun a : answer => (length (snd a) <= w)%nat) an).
Definition lam (k : nat) : Z := match k with O => 0 | S j => Z.max (fst (nth j an (0, []))) 0 end.
Lemma lam_run k : (1 <= k <= S (length rs))%nat -> lam k = wlam (run wnext (W0, 0) (firstn k cs)).
Proof.
  intros Hk. pose proof (cs_len table pict rs) as Lc. destruct k as [|j]; [lia|]. unfold lam. rewrite rows_nth by lia. cbn [fst].
  rewrite run_state. pose proof (wb_valid (rev (firstn (S j) cs))) as V. unfold wlam. cbn [fst snd]. destruct (wb_of _); cbn [base_len wvalid] in *; lia.
Qed.
Lemma total_1 i : (i < S (length rs))%nat -> total (firstn (S i) an) w i = wfirst (wb_of (rev (firstn i cs))) (nth i cs 0).
Proof.
  intros Hi. pose proof (cs_len table pict rs) as Lc. rewrite total_prefix by exact Hw. rewrite firstn_firstn. replace (Nat.min i (S i)) with i by lia.
  rewrite (skipn_cons (firstn (S i) cs) i) by (rewrite firstn_length; lia). rewrite (skipn_all2 (n := S i) (firstn (S i) cs)) by (rewrite firstn_length; lia).
  rewrite nth_firstn by lia. cbn [tailsum]. rewrite run_state. unfold wpens. cbn [nth fst]. lia.
Qed.
Lemma total_2 i : (i < length rs)%nat -> total (firstn (S (S i)) an) w i = wfirst (wb_of (rev (firstn i cs))) (nth i cs 0) + wsecond (wbnext (wb_of (rev (firstn i cs))) (nth i cs 0), nth i cs 0) (nth (S i) cs 0).
Proof.
  intros Hi. pose proof (cs_len table pict rs) as Lc. rewrite total_prefix by exact Hw. rewrite run_state, firstn_firstn. replace (Nat.min i (S (S i))) with i by lia.
  rewrite (skipn_cons (firstn (S (S i)) cs) i), (skipn_cons (firstn (S (S i)) cs) (S i)) by (rewrite firstn_length; lia).
  rewrite !nth_firstn by lia. rewrite (skipn_all2 (n := S (S i)) (firstn (S (S i)) cs)) by (rewrite firstn_length; lia).
  cbn [tailsum]. unfold wnext at 1. cbn [fst snd]. unfold wpens. cbn [nth fst snd]. lia.
Qed.
Lemma word_value k i : (k <= S (length rs))%nat -> (i < length rs)%nat -> Z.of_nat i < Z.of_nat k - lam k -> ok_pen (total (firstn k an) w i) = true ->
  (forall j, (j < k)%nat -> Z.of_nat i < Z.of_nat j - lam j -> ok_pen (total (firstn j an) w i) = false) ->
  let v := total (firstn k an) w i in (v <=? -10000) = (newline (nth i cs 0) || lf_or_nl (nth (S i) cs 0)) /\ (v <= -10000 \/ v = 10).
Proof.
  intros Hk Hi Hs Ok Mn. cbv zeta. pose proof (cs_len table pict rs) as Lc.
  set (B := wb_of (rev (firstn i cs))) in *. set (a := nth i cs 0) in *. set (c := nth (S i) cs 0) in *.
  assert (Ha : In a classes) by (apply cs_in; lia). assert (Hc : In c classes) by (apply cs_in; lia).
  assert (Hk1 : (1 <= k)%nat) by (destruct k; [cbn in Hs; lia|lia]).
  assert (S1 : wb_of (rev (firstn (S i) cs)) = wbnext B a) by (rewrite rev_firstn_S by lia; reflexivity).
  assert (S2 : wb_of (rev (firstn (S (S i)) cs)) = wbnext (wbnext B a) c) by (rewrite (rev_firstn_S cs (S i)), (rev_firstn_S cs i) by lia; reflexivity).
  rewrite (lam_run k) in Hs by lia. rewrite run_state in Hs. set (st := wb_of (rev (firstn k cs))) in *.
  assert (Lm : base_len st < Z.of_nat (k - i)) by (unfold wlam in Hs; cbn [fst snd] in Hs; lia).
  pose proof (wb_valid (rev (firstn k cs))) as Vs. fold st in Vs.
  assert (Hik : (i < k)%nat) by (destruct st; cbn [base_len wvalid] in *; lia).
  destruct (lf_or_nl a) eqn:Na.
  - destruct (after_nl B a Na) as (N1 & N2 & N3 & N4 & N5). rewrite N5. cbn [orb].
    assert (k = S i) as Ek.
    { destruct (Nat.eq_dec k (S i)); auto. exfalso. specialize (Mn (S i) ltac:(lia)).
      rewrite (lam_run (S i)), run_state, S1, N1, rev_firstn_S in Mn by lia. fold a in Mn. unfold wlam in Mn. cbn [fst snd base_len hd] in Mn. rewrite N2 in Mn.
      rewrite total_1 in Mn by lia. fold B a in Mn. rewrite N3 in Mn. specialize (Mn ltac:(lia)). discriminate. }
    rewrite Ek, total_1 by lia. fold B a. split; [now apply Z.leb_le|auto].
  - destruct (Nat.eq_dec k (S i)) as [Ek|Nk].
    { exfalso. rewrite Ek, total_1 in Ok by lia. fold B a in Ok. revert Ok. unfold wfirst, lf_or_nl in *. rewrite Na. apply orb_false_iff in Na. destruct Na as [-> _]. destruct B; discriminate. }
    destruct (Z.eq_dec c CR) as [Ec|Nc].
    + assert (k = S (S i)) as Ek.
      { destruct (Nat.eq_dec k (S (S i))); auto. exfalso. specialize (Mn (S (S i)) ltac:(lia)).
        rewrite (lam_run (S (S i))), run_state, S2, Ec, after_CR, rev_firstn_S in Mn by lia. fold c in Mn. rewrite Ec in Mn. unfold wlam in Mn. cbn [fst snd base_len hd] in Mn. change (CR =? ZWJ) with false in Mn.
        rewrite total_2 in Mn by lia. fold B a c in Mn. rewrite Ec in Mn. rewrite <- (Z.add_0_r (wfirst _ _ + wsecond _ _)), verdict_CR in Mn by auto. specialize (Mn ltac:(lia)). discriminate. }
      rewrite Ek, total_2 in Ok |- * by lia. fold B a c in Ok |- *. rewrite <- (Z.add_0_r (wfirst _ _ + wsecond _ _)) in Ok |- *. apply (value B a c 0); auto.
    + assert (E : total (firstn k an) w i = total an w i).
      { rewrite (total_more wnext wlam wpens cs (W0, 0) w i k) by (try lia; exact Hw). rewrite run_state. fold st.
        assert (Hin : inert st (k - i)).
        { destruct st eqn:Es; cbn [inert base_len wvalid] in *; auto; try lia. destruct (le_lt_dec 3 (k - i)); auto. exfalso. apply Nc.
          assert (k = S (S i)) as -> by lia. unfold st in Es. rewrite S2 in Es. exact (to_CR _ _ Es). }
        rewrite late_inert by (auto; lia). lia. }
      rewrite E in Ok |- *. rewrite (total_pos table pict rs w Hw i) in Ok |- * by lia. cbv zeta in Ok |- *. fold B a c in Ok |- *.
      apply (value B a c); auto. apply later_value. intros X. apply Nc. exact (to_CR _ _ X).
Qed.
End OneText.

Lemma word_pens table pict text n : zlen text < MaxInt -> (length text + 1 < n)%nat ->
  let cls := CodePointClassFor table pict in
  exists s1 outs s', InitFromSlice deque_ops text (NewSegmenter [Some NewWordBreaker]) = Ok s1 /\ loop deque_ops (wb_step table pict) n s1 = Ok (outs, true, s') /\
    forall m seg p, nth_error outs m = Some (seg, p) -> exists i, (i < length text)%nat /\ concat (map fst (firstn (S m) outs)) = firstn (S i) text /\
      (fst p <=? -10000) = (newline (cls (nth i text 0)) || lf_or_nl (match skipn (S i) text with [] => eot | r :: _ => cls r end)) /\ (fst p <= -10000 \/ fst p = 10).
Proof.
  intros Tt Hn cls. set (step := wb_step table pict). set (b := Some NewWordBreaker).
  assert (Es : eot_safe (matrix step [b] (text ++ [0]))) by (unfold step, b; rewrite wmatrix; apply weot_safe).
  destruct (first_slice step b text n Tt Hn Es) as (s1 & outs & L & s' & I & E & D & O).
  exists s1, outs, s'. split; [exact I|]. split; [exact E|]. intros m seg p Hm.
  rewrite O, nth_error_map in Hm. destruct (nth_error L m) as [[[d i] k]|] eqn:Em; [|discriminate]. cbn [option_map] in Hm.
  assert (Lo : length (ones text) = length text) by (unfold ones; apply map_length).
  assert (Es' : eot_safe (matrix step [b] (map fst (ones text) ++ [0]))) by now rewrite ones_fst.
  destruct (delivery_cat step [b] (ones text) (false, false) (eot_lim step b (ones text) Es') 0 0 L D ltac:(lia) m d i k Em) as (A1 & A2 & A3). rewrite Lo in A2.
  pose proof (delivery_first step [b] (ones text) (false, false) 0 0 L D ltac:(lia) ltac:(intros q j Hq Hj; lia)) as FF. rewrite Forall_forall in FF.
  specialize (FF _ (nth_error_In _ _ Em)). cbv beta iota in FF. destruct FF as (K1 & K2 & K3 & K4).
  exists (d + i)%nat. split; [exact A2|]. rewrite O, A3. cbn [skipn]. unfold rs at 1. rewrite ones_fst. split; [f_equal; lia|].
  destruct (rows_width wnext wlam wpens (map cls (text ++ [0])) (W0, 0)) as [w Hw].
  set (an := rows wnext wlam wpens (W0, 0) (map cls (text ++ [0]))) in *.
  assert (Ea : answers step b (map fst (ones text) ++ [0]) = an) by (rewrite ones_fst; apply answers_new).
  assert (EN : N (ones text) EOF = S (length text)) by (rewrite N_len, Lo; lia).
  assert (La : length an = S (length text)) by apply an_len.
  assert (ES : forall j q, (j <= S (length text))%nat -> settles step [b] (ones text) j q <-> Z.of_nat q < Z.of_nat j - lam table pict text j).
  { intros j q Hj. unfold settles. rewrite (lam_answers step b (ones text)) by (rewrite Ea, La; exact Hj). rewrite Ea. unfold lam. reflexivity. }
  assert (EW : forall j, Forall (fun x : answer => (length (snd x) <= w)%nat) (firstn j an)).
  { intros j. apply Forall_forall. intros x Ix. rewrite Forall_forall in Hw. apply Hw. rewrite <- (firstn_skipn j an). apply in_or_app. auto. }
  assert (EM : forall j, firstn j (mat step [b] (ones text) EOF) = map row1 (firstn j an)) by (intros j; rewrite (mat_answers step b (ones text)), Ea, firstn_map; reflexivity).
  assert (ET : forall j, T step [b] (ones text) EOF (false, false) j (d + i) = ok_pen (total (firstn j an) w (d + i))).
  { intros j. unfold T. rewrite EM, ins_EOF, ones_fst. apply (test_pos text (firstn j an) w); auto. }
  assert (EP : fst p = total (firstn k an) w (d + i)).
  { injection Hm as _ <-. unfold seg_pens. cbn [fst]. rewrite EM, ins_EOF, ones_fst. apply ap0_total; auto. }
  rewrite EP. rewrite EN in K1. rewrite ET in K3.
  pose proof (word_value table pict text w Hw k (d + i) K1 A2 (proj1 (ES k _ K1) K2) K3) as V.
  cbv zeta in V. fold cls an in V.
  assert (E1 : nth (d + i) (map cls (text ++ [0])) 0 = cls (nth (d + i) text 0)).
  { rewrite (nth_indep _ 0 (cls 0)) by (rewrite map_length, app_length; lia). rewrite map_nth, app_nth1 by auto. reflexivity. }
  assert (E2 : nth (S (d + i)) (map cls (text ++ [0])) 0 = match skipn (S (d + i)) text with [] => eot | r :: _ => cls r end).
  { rewrite (nth_indep _ 0 (cls 0)) by (rewrite map_length, app_length; cbn [length]; lia). rewrite map_nth. destruct (le_lt_dec (length text) (S (d + i))).
    - rewrite skipn_all2 by auto. rewrite app_nth2 by auto. replace (S (d + i) - length text)%nat with 0%nat by lia. reflexivity.
    - rewrite app_nth1 by auto. rewrite skipn_cons by auto. reflexivity. }
  rewrite E1, E2 in V. apply V. intros j Hj Sj. rewrite <- ET. apply K4; auto. apply ES; auto. lia.
Qed.
