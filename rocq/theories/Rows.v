(* Rows.v -- penalties of a breaker that is summarised by a state machine. *)
From Coq Require Import List ZArith Lia Bool.
From Verif Require Import Base Segmenter SegSpec SegProofs SegInv SegCut BreakFacade SegWeak.
Import ListNotations.
Open Scope Z_scope.

Section Rows.
Context {St : Type} (next : St -> Z -> St) (lam : St -> Z) (pens : St -> Z -> list Z).
Fixpoint rows (st : St) (cs : list Z) : list answer :=
  match cs with [] => [] | c :: t => (lam (next st c), pens st c) :: rows (next st c) t end.
Definition run (st : St) (cs : list Z) : St := fold_left next cs st.
(* what the classes cs, read from state st, contribute to the position d before the first of them *)
Fixpoint tailsum (st : St) (cs : list Z) (d : nat) : Z :=
  match cs with [] => 0 | c :: t => nth d (pens st c) 0 + tailsum (next st c) t (S d) end.

Lemma rows_len : forall cs st, length (rows st cs) = length cs.
Proof. induction cs; intros; simpl; auto. Qed.
Lemma rows_firstn : forall k cs st, firstn k (rows st cs) = rows st (firstn k cs).
Proof. induction k; intros [|c t] st; simpl; auto. f_equal; auto. Qed.
Lemma run_app st a b : run st (a ++ b) = run (run st a) b.
Proof. apply fold_left_app. Qed.
Lemma tailsum_app : forall a b st d, tailsum st (a ++ b) d = tailsum st a d + tailsum (run st a) b (d + length a).
Proof.
  induction a as [|c a IH]; intros b st d.
  - simpl. now rewrite Nat.add_0_r.
  - cbn [app tailsum length]. rewrite IH. change (run st (c :: a)) with (run (next st c) a). replace (S d + length a)%nat with (d + S (length a))%nat by lia. lia.
Qed.
Lemma rows_nth : forall cs st i d, (i < length cs)%nat ->
  nth i (rows st cs) d = (lam (run st (firstn (S i) cs)), pens (run st (firstn i cs)) (nth i cs 0)).
Proof.
  induction cs as [|c t IH]; intros st i d Hi; [simpl in Hi; lia|]. destruct i; [reflexivity|].
  cbn [rows nth]. rewrite IH by (simpl in Hi; lia). reflexivity.
Qed.
Lemma rows_width cs : forall st, exists w, Forall (fun a : answer => (length (snd a) <= w)%nat) (rows st cs).
Proof.
  induction cs as [|c t IH]; intros st; [exists 0%nat; constructor|]. destruct (IH (next st c)) as [w H].
  exists (Nat.max w (length (pens st c))). constructor; [cbn [snd]; lia|].
  eapply Forall_impl; [|exact H]. cbn. intros; lia.
Qed.

Lemma pen_rows cs st i d : (i + d < length cs)%nat -> pen (rows st cs) i d = nth d (pens (run st (firstn (i + d) cs)) (nth (i + d) cs 0)) 0.
Proof. intros H. unfold pen. rewrite rows_nth by auto. reflexivity. Qed.
Lemma pen_out cs st i d : (length cs <= i + d)%nat -> pen (rows st cs) i d = 0.
Proof. intros H. unfold pen. rewrite (nth_overflow (rows st cs)) by (rewrite rows_len; auto). destruct d; reflexivity. Qed.

Lemma total_0 : forall cs st w d, Forall (fun a : answer => (length (snd a) <= w)%nat) (rows st cs) ->
  fold_right Z.add 0 (map (fun e => nth (d + e) (snd (nth e (rows st cs) (0, []))) 0) (seq 0 w)) = tailsum st cs d.
Proof.
  assert (G : forall cs st w n d, Forall (fun a : answer => (length (snd a) <= w)%nat) (rows st cs) -> (w <= n + d)%nat ->
    fold_right Z.add 0 (map (fun e => nth (d + e) (snd (nth e (rows st cs) (0, []))) 0) (seq 0 n)) = tailsum st cs d).
  { induction cs as [|c t IH]; intros st w n d Hw Hn.
    - cbn [tailsum]. apply sum_zeros. intros x _. simpl. destruct x; simpl; destruct (d + _)%nat; reflexivity.
    - cbn [rows tailsum]. cbn [rows] in Hw. pose proof (Forall_inv Hw) as H1. pose proof (Forall_inv_tail Hw) as H2. cbn [snd] in H1.
      destruct n as [|n].
      + cbn [seq map fold_right]. rewrite nth_overflow by lia.
        rewrite <- (IH (next st c) w 0%nat (S d) H2) by lia. reflexivity.
      + cbn [seq map fold_right]. rewrite <- seq_shift, map_map. rewrite Nat.add_0_r. cbn [nth snd]. f_equal.
        rewrite <- (IH (next st c) w n (S d) H2) by lia. f_equal. apply map_ext. intros e.
        change (nth (S e) ((lam (next st c), pens st c) :: rows (next st c) t) (0, [])) with (nth e (rows (next st c) t) (0, [])).
        f_equal. lia. }
  intros. eapply G; eauto. lia.
Qed.
Lemma total_rows cs st w i : Forall (fun a : answer => (length (snd a) <= w)%nat) (rows st cs) ->
  total (rows st cs) w i = tailsum (run st (firstn i cs)) (skipn i cs) 0.
Proof.
  revert cs st. induction i as [|i IH]; intros cs st Hw.
  - cbn [firstn skipn]. rewrite <- (total_0 cs (run st []) w 0) by auto. reflexivity.
  - destruct cs as [|c t].
    + simpl. apply sum_zeros. intros d _. unfold pen. simpl. destruct d; reflexivity.
    + cbn [rows] in Hw. pose proof (Forall_inv_tail Hw) as H2. cbn [firstn skipn]. change (run st (c :: firstn i t)) with (run (next st c) (firstn i t)).
      rewrite <- IH by auto. reflexivity.
Qed.

(* sums at a position, over the first k rows and over all *)
Lemma total_prefix cs st w i k : Forall (fun a : answer => (length (snd a) <= w)%nat) (rows st cs) ->
  total (firstn k (rows st cs)) w i = tailsum (run st (firstn i (firstn k cs))) (skipn i (firstn k cs)) 0.
Proof.
  intros Hw. rewrite rows_firstn. apply total_rows. rewrite <- rows_firstn.
  apply Forall_forall. intros a Ia. rewrite Forall_forall in Hw. apply Hw. rewrite <- (firstn_skipn k (rows st cs)). apply in_or_app. auto.
Qed.
Lemma total_more cs st w i k : (i <= k)%nat -> (k <= length cs)%nat -> Forall (fun a : answer => (length (snd a) <= w)%nat) (rows st cs) ->
  total (rows st cs) w i = total (firstn k (rows st cs)) w i + tailsum (run st (firstn k cs)) (skipn k cs) (k - i).
Proof.
  intros Hi Hk Hw. rewrite total_prefix, total_rows by auto.
  assert (E : skipn i cs = skipn i (firstn k cs) ++ skipn k cs).
  { rewrite <- (firstn_skipn k cs) at 1. rewrite skipn_app. f_equal. rewrite firstn_length. replace (i - Nat.min k (length cs))%nat with 0%nat by lia. reflexivity. }
  rewrite E, tailsum_app. rewrite firstn_firstn. replace (Nat.min i k) with i by lia. f_equal.
  rewrite <- run_app. replace (firstn i cs ++ skipn i (firstn k cs)) with (firstn k cs).
  - rewrite skipn_length, firstn_length. replace (0 + (Nat.min k (length cs) - i))%nat with (k - i)%nat by lia. reflexivity.
  - rewrite <- (firstn_skipn i (firstn k cs)) at 1. rewrite firstn_firstn. replace (Nat.min i k) with i by lia. reflexivity.
Qed.
End Rows.

(* A settled position with more than one rune behind it is final; the newest position may only
   change from "no break" to "break". *)
Lemma weakly_conforming_one rs an w : length an = S (length rs) -> Forall (fun a : answer => (length (snd a) <= w)%nat) an ->
  (forall k i, (1 <= k < length an)%nat -> (i < k)%nat -> Z.of_nat i < Z.of_nat k - Z.max (fst (nth (k - 1) an (0, []))) 0 ->
     ((S i < k)%nat -> ok_pen (total (firstn k an) w i) = ok_pen (total an w i)) /\
     (S i = k -> ok_pen (total (firstn k an) w i) = true -> ok_pen (total an w i) = true)) ->
  weakly_conforming (breakable (false, false) false) (inputs rs) (map row1 an).
Proof.
  intros Hl Hw H k i Hk Hs Ti j Hj. rewrite map_length in Hk. unfold settled in Hs.
  rewrite (nth_indep _ [] (row1 (0, []))) in Hs by (rewrite map_length; lia). rewrite map_nth, longest_one in Hs.
  destruct (Nat.eq_dec k (length an)) as [->|]; [rewrite <- (map_length row1 an), firstn_all; reflexivity|].
  assert (Hw' : Forall (fun a : answer => (length (snd a) <= w)%nat) (firstn k an)).
  { apply Forall_forall. intros a Ia. rewrite Forall_forall in Hw. apply Hw. rewrite <- (firstn_skipn k an). apply in_or_app. auto. }
  rewrite firstn_map in *. rewrite (test_pos rs _ w) in Ti by (try lia; auto). rewrite !(test_pos rs _ w); try lia; auto.
  destruct (H k j) as [A C]; try lia. destruct (Nat.eq_dec (S j) k) as [E|].
  - replace j with i by lia. destruct (H k i) as [_ C']; try lia. rewrite Ti. symmetry. apply C'; auto. lia.
  - apply A. lia.
Qed.
