(* SegProofs.v -- the segmenter over lists: queue contents and penalties. *)
From Coq Require Import List ZArith Lia Bool.
From Verif Require Import Base RuneWrite Segmenter SegSpec PrioQProofs.
Import ListNotations.
Open Scope Z_scope.

(* ---- inserting penalties ---- *)
Definition addp (sel : bool) (a : atom) (p : Z) : atom :=
  if sel then mkatom (ar a) (ap0 a) (ap1 a + p) else mkatom (ar a) (ap0 a + p) (ap1 a).

(* From the newest atom backwards; what exceeds the queue is dropped. *)
Fixpoint addr (sel : bool) (h : list atom) (ps : list Z) : list atom :=
  match h, ps with
  | a :: h', p :: ps' => addp sel a p :: addr sel h' ps'
  | _, _ => h
  end.

Lemma addr_len sel : forall h ps, length (addr sel h ps) = length h.
Proof. induction h; intros [|p ps]; simpl; auto. Qed.
Lemma addr_firstn sel : forall h ps, addr sel h (firstn (length h) ps) = addr sel h ps.
Proof. induction h; intros [|p ps]; simpl; auto. now rewrite IHh. Qed.
Lemma addr_prefix sel : forall m h ps, firstn m (addr sel h ps) = addr sel (firstn m h) ps.
Proof. induction m; intros [|a h] [|p ps]; simpl; auto. now rewrite IHm. Qed.
Lemma addr_nth sel : forall h ps j d, (j < length h)%nat ->
  nth j (addr sel h ps) d = addp sel (nth j h d) (nth j ps 0).
Proof.
  assert (Z0 : forall a, addp sel a 0 = a).
  { intros []; unfold addp; destruct sel; simpl; now rewrite Z.add_0_r. }
  induction h as [|a h IH]; intros [|p ps] [|j] d L; simpl in *; try lia; auto.
  apply IH; lia.
Qed.

Lemma add_at_mid x a y sel p : add_at list_ops (x ++ a :: y) sel (zlen x) p = Ok (x ++ addp sel a p :: y).
Proof.
  unfold add_at, addp. cbn [q_at q_set list_ops]. rewrite zget_mid. cbn [lift rbind].
  destruct sel; rewrite zset_mid; reflexivity.
Qed.

Lemma insert_loop_rev sel : forall h y ps, (length ps <= length h)%nat ->
  insert_loop list_ops (rev h ++ y) sel (zlen h - 1) ps = Ok (rev (addr sel h ps) ++ y).
Proof.
  induction h as [|a h IH]; intros y ps L.
  - destruct ps; simpl in *; [auto|lia].
  - destruct ps as [|p ps]; [simpl; auto|]. cbn [insert_loop addr rev].
    rewrite <- app_assoc. cbn [app].
    replace (zlen (a :: h) - 1) with (zlen (rev h)) by (unfold zlen; rewrite rev_length; simpl length; lia).
    rewrite add_at_mid. cbn [rbind].
    replace (zlen (rev h) - 1) with (zlen h - 1) by (unfold zlen; rewrite rev_length; lia).
    rewrite (IH (addp sel a p :: y) ps) by (simpl in L; lia). rewrite <- app_assoc. reflexivity.
Qed.

Lemma insertPenalties_rev sel d ps : insertPenalties list_ops d sel ps = Ok (rev (addr sel (rev d) ps)).
Proof.
  unfold insertPenalties. cbn [q_len list_ops].
  set (ps' := if zlen ps >? zlen d then firstn (Z.to_nat (zlen d)) ps else ps).
  assert (E : addr sel (rev d) ps = addr sel (rev d) ps').
  { unfold ps'. destruct (_ >? _); auto. unfold zlen. rewrite Nat2Z.id. rewrite <- rev_length. symmetry. apply addr_firstn. }
  assert (L : (length ps' <= length (rev d))%nat).
  { rewrite rev_length. unfold ps'. unfold zlen. destruct (Z.gtb_spec (Z.of_nat (length ps)) (Z.of_nat (length d))); [|lia].
    rewrite firstn_length. lia. }
  rewrite E. pose proof (insert_loop_rev sel (rev d) [] ps' L) as H.
  rewrite rev_involutive, !app_nil_r in H. rewrite <- H. f_equal. unfold zlen. now rewrite rev_length.
Qed.

(* ---- one round of all breakers ---- *)
Fixpoint feedr (sel : bool) (o : list answer) (h : list atom) : list atom :=
  match o with [] => h | a :: t => feedr true t (addr sel h (snd a)) end.

Lemma feedr_len : forall o sel h, length (feedr sel o h) = length h.
Proof. induction o; intros; simpl; auto. rewrite IHo. apply addr_len. Qed.
Lemma feedr_prefix : forall o sel m h, firstn m (feedr sel o h) = feedr sel o (firstn m h).
Proof. induction o; intros; simpl; auto. rewrite IHo. now rewrite addr_prefix. Qed.

Lemma feedr_nth_sec : forall o h j d, (j < length h)%nat ->
  nth j (feedr true o h) d =
    mkatom (ar (nth j h d)) (ap0 (nth j h d))
           (ap1 (nth j h d) + fold_right Z.add 0 (map (fun a : answer => nth j (snd a) 0) o)).
Proof.
  induction o as [|a o IH]; intros h j d L; simpl.
  - destruct (nth j h d); simpl. now rewrite Z.add_0_r.
  - rewrite IH by (rewrite addr_len; auto). rewrite addr_nth by auto. simpl. f_equal. lia.
Qed.
Lemma feedr_nth o h j d : (j < length h)%nat ->
  nth j (feedr false o h) d =
    mkatom (ar (nth j h d)) (ap0 (nth j h d) + prim o j) (ap1 (nth j h d) + sec o j).
Proof.
  intros L. destruct o as [|a o]; simpl.
  - destruct (nth j h d); simpl. unfold sec; simpl. now rewrite !Z.add_0_r.
  - rewrite feedr_nth_sec by (rewrite addr_len; auto). rewrite addr_nth by auto. reflexivity.
Qed.

Section Proofs.
Context {B : Type} (bstep : B -> Z -> B * Z * list Z).
Notation feed := (feed list_ops bstep).

Lemma feed_rev : forall bs sel r lm d,
  feed sel bs r lm d = Ok (bs_next bstep bs r,
                           Z.max lm (fold_right Z.max lm (map fst (bs_out bstep bs r))),
                           rev (feedr sel (bs_out bstep bs r) (rev d))).
Proof.
  induction bs as [|b bs IH]; intros sel r lm d; simpl.
  - rewrite rev_involutive, Z.max_id. reflexivity.
  - destruct (bstep b r) as [[b' l] ps] eqn:E. rewrite insertPenalties_rev. cbn [rbind].
    rewrite IH. cbn [rbind]. rewrite rev_involutive. simpl. do 3 f_equal.
    assert (G : forall (xs : list Z) m n, Z.max n (fold_right Z.max m xs) = Z.max (Z.max n m) (fold_right Z.max n xs)).
    { intros xs m n. induction xs; simpl; lia. }
    generalize (map fst (bs_out bstep bs r)) as xs. intros xs.
    pose proof (G xs lm l). pose proof (G xs l lm).
    pose proof (G xs lm lm). pose proof (G xs l l).
    destruct (Z.gtb_spec l lm); simpl; lia.
Qed.

Lemma feed_ok bs r d :
  feed false bs r 0 d = Ok (bs_next bstep bs r, longest (bs_out bstep bs r), rev (feedr false (bs_out bstep bs r) (rev d))).
Proof.
  rewrite feed_rev. repeat f_equal. unfold longest.
  assert (0 <= fold_right Z.max 0 (map fst (bs_out bstep bs r))) by (induction (map fst (bs_out bstep bs r)); simpl; lia).
  lia.
Qed.
Lemma longest_nonneg (o : list answer) : 0 <= longest o.
Proof. unfold longest. induction (map fst o); simpl; lia. Qed.

(* ---- the matrix ---- *)
Lemma matrix_len : forall rs bs, length (matrix bstep bs rs) = length rs.
Proof. induction rs; intros; simpl; auto. Qed.
Definition bs_run (bs : list B) (rs : list Z) : list B := fold_left (bs_next bstep) rs bs.
Lemma matrix_app : forall rs bs ts, matrix bstep bs (rs ++ ts) = matrix bstep bs rs ++ matrix bstep (bs_run bs rs) ts.
Proof. induction rs; intros; simpl; auto. now rewrite IHrs. Qed.
Lemma matrix_firstn : forall k bs rs, firstn k (matrix bstep bs rs) = matrix bstep bs (firstn k rs).
Proof. induction k; intros bs [|r rs]; simpl; auto. now rewrite IHk. Qed.

Lemma fold_add_app l m : fold_right Z.add 0 (l ++ m) = fold_right Z.add 0 l + fold_right Z.add 0 m.
Proof. induction l; simpl; lia. Qed.

Lemma column_snoc f m o i : (i <= length m)%nat ->
  column f (m ++ [o]) i = column f m i + f o (length m - i)%nat.
Proof.
  intros L. unfold column. rewrite app_length. simpl length.
  replace (length m + 1 - i)%nat with (length m - i + 1)%nat by lia.
  rewrite seq_app, map_app, fold_add_app. simpl. replace (i + (length m - i))%nat with (length m) by lia.
  rewrite app_nth2 by lia. rewrite Nat.sub_diag. simpl. rewrite Z.add_0_r. f_equal. f_equal.
  apply map_ext_in. intros k Hk. apply in_seq in Hk. rewrite app_nth1 by lia. reflexivity.
Qed.
Lemma column_out f m i : (length m <= i)%nat -> column f m i = 0.
Proof. intros L. unfold column. replace (length m - i)%nat with 0%nat by lia. reflexivity. Qed.

Lemma effs_len ins m : length (effs ins m) = length m.
Proof. unfold effs. rewrite map_length. apply seq_length. Qed.
Lemma effs_nth ins m i d : (i < length m)%nat -> nth i (effs ins m) d = eff ins m i.
Proof.
  intros L. unfold effs. rewrite (nth_indep _ d (eff ins m 0)) by (rewrite map_length, seq_length; auto).
  rewrite map_nth. rewrite seq_nth by auto. reflexivity.
Qed.

Lemma effs_snoc ins m o : 
  effs ins (m ++ [o]) = rev (feedr false o (rev (effs ins m ++ [nth (length m) ins zeroAtom]))).
Proof.
  set (a := nth (length m) ins zeroAtom).
  apply nth_ext with (d := zeroAtom) (d' := zeroAtom).
  { rewrite rev_length, feedr_len, rev_length, app_length, !effs_len, app_length. reflexivity. }
  intros i Hi. rewrite effs_len in Hi. rewrite app_length in Hi. simpl in Hi.
  rewrite effs_nth by (rewrite app_length; simpl; lia).
  rewrite rev_nth by (rewrite feedr_len, rev_length, app_length, effs_len; simpl; lia).
  rewrite feedr_len, rev_length, app_length, effs_len. simpl length.
  rewrite feedr_nth by (rewrite rev_length, app_length, effs_len; simpl; lia).
  rewrite rev_nth by (rewrite app_length, effs_len; simpl; lia).
  rewrite app_length, effs_len. simpl length.
  replace (length m + 1 - S (length m + 1 - S i))%nat with i by lia.
  replace (length m + 1 - S i)%nat with (length m - i)%nat by lia.
  unfold eff. rewrite !column_snoc by lia.
  destruct (Nat.eq_dec i (length m)) as [->|N].
  - rewrite app_nth2 by (rewrite effs_len; lia). rewrite effs_len, Nat.sub_diag. simpl nth. fold a.
    rewrite !column_out by lia. f_equal; lia.
  - rewrite app_nth1 by (rewrite effs_len; lia). rewrite effs_nth by lia. unfold eff. simpl. f_equal; lia.
Qed.

(* Popping from the front commutes with a round of breakers. *)
Lemma feedr_skip o (l : list atom) c : (c <= length l)%nat ->
  rev (feedr false o (rev (skipn c l))) = skipn c (rev (feedr false o (rev l))).
Proof.
  intros L. rewrite <- (rev_involutive (skipn c (rev (feedr false o (rev l))))). f_equal.
  rewrite skipn_rev. rewrite rev_involutive. rewrite feedr_len, rev_length. rewrite feedr_prefix.
  f_equal. rewrite <- (rev_involutive l) at 1. rewrite skipn_rev, rev_involutive, rev_length. reflexivity.
Qed.
End Proofs.
