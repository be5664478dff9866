(* ReorderProofs.v -- reordering and run building for lists of scraps without nested isolates. *)
From Coq Require Import List ZArith Lia Bool Permutation.
From Verif Require Import Base Scrap Reorder ReorderSpec.
Import ListNotations.
Open Scope Z_scope.

(* ---- lists ---- *)
Lemma reverse_seg_tail {A} (pre blk : list A) :
  reverse_seg (pre ++ blk) (length pre) (length (pre ++ blk)) = pre ++ rev blk.
Proof.
  unfold reverse_seg. rewrite app_length.
  replace (length pre + length blk - length pre)%nat with (length blk) by lia.
  rewrite firstn_app, firstn_all, Nat.sub_diag, firstn_O, app_nil_r.
  rewrite skipn_app, skipn_all, Nat.sub_diag, skipn_O. cbn [app].
  rewrite firstn_all, skipn_all2 by (rewrite app_length; lia). rewrite app_nil_r. reflexivity.
Qed.

Lemma rev_blocks_perm {A} (f : A -> bool) l : forall acc, Permutation (rev_blocks f acc l) (acc ++ l).
Proof.
  induction l as [|x t IH]; intros acc; simpl.
  - rewrite app_nil_r. reflexivity.
  - destruct (f x).
    + rewrite IH. simpl. apply Permutation_middle.
    + apply Permutation_app_head. constructor. apply IH.
Qed.

(* ---- the automaton ---- *)
Definition opp (emb : bool) (s : scrap) : bool := 0 <? level s emb.

Lemma level_cases s emb : level s emb = 0 \/ level s emb = 1 \/ level s emb = 2.
Proof. unfold level. destruct (_ || _); auto. destruct (_ || _); auto. Qed.

Lemma opp_false s emb : opp emb s = false <-> (level s emb =? 0) = true.
Proof. unfold opp. destruct (level_cases s emb) as [E|[E|E]]; rewrite E; split; intros H; vm_compute in H |- *; congruence. Qed.

Lemma order_loop_spec emb todo : Forall (fun s => clz s <> cNULL) todo ->
  (forall done st, order_loop emb done st false todo = done ++ rev_blocks (opp emb) [] todo) /\
  (forall pre blk, todo <> [] ->
     order_loop emb (pre ++ blk) (length pre) true todo = pre ++ rev_blocks (opp emb) (rev blk) todo).
Proof.
  induction todo as [|s t IH]; intros F.
  - split; [intros; cbn; now rewrite app_nil_r|congruence].
  - inversion F as [|? ? N F']; subst. specialize (IH F'). destruct IH as [IHf IHt].
    assert (NN : (clz s =? cNULL) = false) by (apply Z.eqb_neq; auto).
    assert (TT : forall pre blk, order_loop emb (pre ++ blk) (length pre) true t =
                   if (length t =? 0)%nat then pre ++ blk else pre ++ rev_blocks (opp emb) (rev blk) t).
    { intros pre blk. destruct t as [|x t']; [reflexivity|].
      cbn [length Nat.eqb]. apply IHt. discriminate. }
    split.
    + intros done st. cbn [order_loop rev_blocks negb]. fold (opp emb s).
      destruct (opp emb s) eqn:O.
      * rewrite NN. rewrite TT. cbn [rev app]. destruct t; reflexivity.
      * rewrite NN. rewrite IHf. rewrite <- app_assoc. reflexivity.
    + intros pre blk _. cbn [order_loop rev_blocks negb].
      destruct (opp emb s) eqn:O.
      * replace (level s emb =? 0) with false
          by (symmetry; destruct (level s emb =? 0) eqn:E; auto; apply opp_false in E; congruence).
        destruct t as [|x t'].
        -- cbn [length Nat.eqb]. rewrite NN. cbn [order_loop].
           replace (length (pre ++ blk) + 1)%nat with (length (pre ++ blk ++ [s]))
             by (rewrite !app_length; simpl; lia).
           rewrite <- app_assoc, reverse_seg_tail. cbn [rev_blocks].
           rewrite rev_app_distr. reflexivity.
        -- change (length (x :: t') =? 0)%nat with false. cbn [negb]. rewrite NN.
           rewrite <- app_assoc, TT.
           change (length (x :: t') =? 0)%nat with false.
           rewrite rev_app_distr. reflexivity.
      * rewrite (proj1 (opp_false s emb) O). rewrite NN. rewrite reverse_seg_tail, IHf.
        rewrite <- !app_assoc. reflexivity.
Qed.

Lemma visit_flat emb ss : flat ss -> visit (reorder_kids emb) ss = Some ss.
Proof.
  induction ss as [|s t IH]; intros F; [reflexivity|]. inversion F as [|? ? K F']; subst.
  cbn [visit]. destruct s as [c l r d k]. cbn in K. subst k. cbn [reorder_kids mapM obind].
  cbn [clz]. destruct (c =? cNULL); auto.
  fold (visit (reorder_kids emb)). rewrite IH by auto. reflexivity.
Qed.

Lemma reorder_flat emb ss : flat ss -> Forall (fun s => clz s <> cNULL) ss ->
  reorder emb ss = Some (rev_blocks (opp emb) [] ss).
Proof.
  intros F N. unfold reorder. rewrite visit_flat by auto. cbn [obind].
  rewrite (proj1 (order_loop_spec emb ss N)). reflexivity.
Qed.

(* ---- runs ---- *)
Lemma zrange_nil l r : r <= l -> zrange l r = [].
Proof. intros H. unfold zrange. replace (Z.to_nat (r - l)) with 0%nat by lia. reflexivity. Qed.

Lemma zrange_len l r : l <= r -> zlen (zrange l r) = r - l.
Proof. intros H. unfold zrange, zlen. rewrite map_length, seq_length. lia. Qed.

Lemma zrange_app a b c : a <= b -> b <= c -> zrange a c = zrange a b ++ zrange b c.
Proof.
  intros H1 H2. unfold zrange.
  replace (Z.to_nat (c - a)) with (Z.to_nat (b - a) + Z.to_nat (c - b))%nat by lia.
  rewrite seq_app, map_app. f_equal. cbn [plus].
  rewrite <- (map_map Z.of_nat (fun z => a + z)).
  rewrite <- (map_map Z.of_nat (fun z => b + z)).
  replace (seq (Z.to_nat (b - a)) (Z.to_nat (c - b))) with (map (fun i => Z.to_nat (b - a) + i)%nat (seq 0 (Z.to_nat (c - b)))).
  - rewrite !map_map. apply map_ext. intros i. lia.
  - generalize (Z.to_nat (c - b)) as m. generalize (Z.to_nat (b - a)) as k. intros k m.
    enough (G : forall n, map (fun i => (k + i)%nat) (seq n m) = seq (k + n) m).
    { rewrite (G 0%nat). now rewrite Nat.add_0_r. }
    induction m; intros n; simpl; auto.
    f_equal. replace (S (k + n)) with (k + S n)%nat by lia. apply IHm.
Qed.

(* What a run says: its positions with its direction. *)
Definition run_view (r : Run) : list (Z * bool) := map (fun p => (p, r_dir r)) (positions (r_scraps r)).

Definition scraps_ok (ss : list scrap) : Prop := Forall proper ss.

(* A run is consistent: it has scraps, and its length is the number of its positions. *)
Definition run_ok (r : Run) : Prop :=
  r_scraps r <> [] /\ scraps_ok (r_scraps r) /\ 0 < r_len r /\ r_len r = zlen (positions (r_scraps r)).

Lemma positions_app a b : positions (a ++ b) = positions a ++ positions b.
Proof. unfold positions. apply flat_map_app. Qed.

Lemma slen_proper s : proper s -> slen s = sr s - sl s.
Proof.
  intros (A & B & C & D). unfold slen. replace (clz s =? cNULL) with false by (symmetry; apply Z.eqb_neq; auto).
  unfold u32. apply Z.mod_small. lia.
Qed.

Lemma zget_last_app {A} (l : list A) x : zget (l ++ [x]) (zlen (l ++ [x]) - 1) = Some x.
Proof.
  unfold zget, zlen. rewrite app_length. simpl length.
  replace (_ && _) with true by (symmetry; apply andb_true_iff; split; [apply Z.leb_le|apply Z.ltb_lt]; lia).
  replace (Z.to_nat _) with (length l) by lia. rewrite nth_error_app2 by lia.
  rewrite Nat.sub_diag. reflexivity.
Qed.

Lemma concat_run r s emb : run_ok r -> proper s -> slen s <> 0 -> r_dir r = dirFromClass s emb ->
  exists r', concat r (run s emb) = Some r' /\ run_ok r' /\ r_dir r' = r_dir r /\
    run_view r' = run_view r ++ map (fun p => (p, dirFromClass s emb)) (zrange (sl s) (sr s)).
Proof.
  intros (R1 & R2 & R3 & R4) P N D. pose proof (slen_proper s P) as SL. destruct P as (P1 & P2 & P3 & P4).
  unfold concat, run. cbn [r_len r_dir r_scraps].
  replace (slen s =? 0) with false by (symmetry; apply Z.eqb_neq; auto).
  rewrite D, Bool.eqb_reflx. cbn [negb].
  destruct (exists_last R1) as (pre & x & E). rewrite E.
  rewrite zget_last_app. cbn [obind zget zlen length].
  change (zget [s] 0) with (Some s). cbn [obind].
  rewrite E in R2, R4. apply Forall_app in R2. destruct R2 as [R2 R2'].
  inversion R2' as [|? ? (X1 & X2 & X3 & X4) _]; subst.
  rewrite positions_app, zlen_app in R4. cbn [positions flat_map] in R4. rewrite app_nil_r in R4.
  rewrite zrange_len in R4 by lia.
  destruct (Z.eqb_spec (sr x) (sl s)) as [J|J].
  - eexists. split; [reflexivity|]. rewrite removelast_last. cbn [tl].
    assert (POS : positions (pre ++ [with_lr x (sl x) (sr s)]) = positions (pre ++ [x]) ++ zrange (sl s) (sr s)).
    { rewrite !positions_app, <- app_assoc. f_equal. cbn [positions flat_map]. rewrite !app_nil_r.
      cbn [sl sr with_lr]. rewrite <- J. apply zrange_app; lia. }
    split; [|split].
    + unfold run_ok. cbn [r_scraps r_len]. split; [destruct pre; discriminate|].
      split; [|split; [lia|]].
      * apply Forall_app. split; auto. constructor; auto. unfold proper. cbn [with_lr sl sr clz]. lia || (repeat split; auto; lia).
      * rewrite POS, zlen_app, positions_app, zlen_app. cbn [positions flat_map]. rewrite app_nil_r.
        rewrite !zrange_len by lia. lia.
    + reflexivity.
    + unfold run_view. cbn [r_scraps r_dir]. rewrite POS, map_app, E. rewrite D. reflexivity.
  - eexists. split; [reflexivity|].
    split; [|split].
    + unfold run_ok. cbn [r_scraps r_len]. split; [destruct pre; discriminate|].
      split; [|split; [lia|]].
      * apply Forall_app. split; [apply Forall_app; split; auto|]; constructor; auto; unfold proper; auto.
      * rewrite !positions_app, !zlen_app. cbn [positions flat_map]. rewrite !app_nil_r.
        rewrite !zrange_len by lia. lia.
    + reflexivity.
    + unfold run_view. cbn [r_scraps r_dir]. rewrite E. rewrite (positions_app (pre ++ [x]) [s]), map_app. f_equal.
      * rewrite D. reflexivity.
      * cbn [positions flat_map]. rewrite app_nil_r. reflexivity.
Qed.

(* Adjacent runs have different directions. *)
Fixpoint alternating (d : option bool) (rs : list Run) : Prop :=
  match rs with
  | [] => True
  | r :: t => d <> Some (r_dir r) /\ alternating (Some (r_dir r)) t
  end.

Lemma alternating_snoc rs : forall d r,
  alternating d rs -> (match rs with [] => d | _ => Some (r_dir (last_run rs)) end) <> Some (r_dir r) ->
  alternating d (rs ++ [r]).
Proof.
  induction rs as [|x t IH]; intros d r A N; simpl in *; auto.
  destruct A as [A1 A2]. split; auto. apply IH; auto.
  destruct t; auto.
Qed.

Lemma alternating_last rs r r' : forall d,
  alternating d (rs ++ [r]) -> r_dir r' = r_dir r -> alternating d (rs ++ [r']).
Proof.
  induction rs as [|x t IH]; intros d A E; simpl in *.
  - rewrite E. auto.
  - destruct A as [A1 A2]. split; auto.
Qed.

Lemma extend_flat s runs emb : proper s -> Forall run_ok runs -> alternating None runs ->
  exists runs', extendRuns s runs emb = Some runs' /\ Forall run_ok runs' /\ alternating None runs' /\
    flat_map run_view runs' =
      flat_map run_view runs ++ map (fun p => (p, dirFromClass s emb)) (zrange (sl s) (sr s)).
Proof.
  intros P F A. pose proof (slen_proper s P) as SL. pose proof P as (P1 & P2 & P3 & P4).
  unfold extendRuns. destruct (Z.eqb_spec (slen s) 0) as [Z0|Z0].
  - exists runs. rewrite (zrange_nil (sl s)) by lia. cbn [map]. rewrite app_nil_r. auto.
  - assert (ROK : run_ok (run s emb)).
    { unfold run_ok, run. cbn [r_scraps r_len]. split; [discriminate|]. split; [constructor; auto|].
      split; [lia|]. cbn [positions flat_map]. rewrite app_nil_r, zrange_len by lia. auto. }
    assert (RV : run_view (run s emb) = map (fun p => (p, dirFromClass s emb)) (zrange (sl s) (sr s))).
    { unfold run_view, run. cbn [r_scraps r_dir positions flat_map]. rewrite app_nil_r. reflexivity. }
    destruct runs as [|r0 t] eqn:ER.
    + cbn [last_run last run0 r_len]. rewrite Z.eqb_refl. exists [run s emb]. split; [reflexivity|].
      split; [constructor; auto|]. split; [cbn; split; auto; discriminate|].
      cbn [flat_map app]. rewrite app_nil_r. exact RV.
    + rewrite <- ER in *. assert (NE : runs <> []) by (rewrite ER; discriminate).
      destruct (exists_last NE) as (pre & x & E). rewrite E in *. clear ER.
      unfold last_run. rewrite last_last.
      apply Forall_app in F. destruct F as [F1 F2]. inversion F2 as [|? ? X _]; subst.
      pose proof X as (X1 & X2 & X3 & X4).
      replace (r_len x =? 0) with false by (symmetry; apply Z.eqb_neq; lia).
      destruct (Bool.eqb (r_dir x) (dirFromClass s emb)) eqn:D.
      * apply eqb_prop in D. destruct (concat_run x s emb X P Z0 D) as (r' & C1 & C2 & C3 & C4).
        rewrite C1. cbn [obind]. rewrite removelast_last. exists (pre ++ [r']). split; [reflexivity|].
        split; [apply Forall_app; split; auto|]. split; [eapply alternating_last; eauto|].
        rewrite !flat_map_app. cbn [flat_map]. rewrite !app_nil_r, C4, app_assoc. reflexivity.
      * apply eqb_false_iff in D. eexists. split; [reflexivity|].
        split; [apply Forall_app; split; auto; apply Forall_app; split; auto|].
        split.
        -- apply alternating_snoc; auto. unfold last_run. rewrite last_last. cbn [run r_dir].
           destruct (pre ++ [x]) eqn:Q; [destruct pre; discriminate|]. congruence.
        -- rewrite !flat_map_app. cbn [flat_map]. rewrite !app_nil_r, RV. reflexivity.
Qed.

Lemma flat_scrap_flat emb s runs : kids s = [] -> flat_scrap emb s runs = extendRuns s runs emb.
Proof. destruct s as [c l r d k]. cbn. intros ->. reflexivity. Qed.

Definition flat_loop (emb : bool) : list scrap -> list Run -> option (list Run) :=
  fix loop (l : list scrap) (rs : list Run) {struct l} : option (list Run) :=
     match l with
     | [] => Some rs
     | x :: l => do rs <- flat_scrap emb x rs; loop l rs
     end.

Lemma flat_loop_flat emb ss : forall runs, flat ss -> scraps_ok ss -> Forall run_ok runs -> alternating None runs ->
  exists runs', flat_loop emb ss runs = Some runs' /\ Forall run_ok runs' /\ alternating None runs' /\
    flat_map run_view runs' = flat_map run_view runs ++ attributed (fun s => dirFromClass s emb) ss.
Proof.
  induction ss as [|s t IH]; intros runs F P R A.
  - exists runs. cbn. rewrite app_nil_r. auto.
  - inversion F as [|? ? F1 F2]; subst. inversion P as [|? ? P1 P2]; subst.
    destruct (extend_flat s runs emb P1 R A) as (r1 & E1 & E2 & E3 & E4).
    destruct (IH r1 F2 P2 E2 E3) as (r2 & G1 & G2 & G3 & G4).
    exists r2. split; [|split; [|split]]; auto.
    + cbn [flat_loop]. rewrite flat_scrap_flat by auto. rewrite E1. cbn [obind]. exact G1.
    + rewrite G4, E4. cbn [attributed flat_map]. rewrite <- app_assoc. reflexivity.
Qed.

(* The direction that flatten takes for the text around: that of a leading isolate initiator. *)
Definition outer_dir (ss : list scrap) (emb : bool) : bool :=
  match ss with f :: _ => if isisolate f then dirFromClass f emb else emb | [] => emb end.

Lemma flatten_flat ss emb : flat ss -> scraps_ok ss ->
  exists runs, flatten ss emb = Some runs /\ Forall run_ok runs /\ alternating None runs /\
    flat_map run_view runs = attributed (fun s => dirFromClass s (outer_dir ss emb)) ss.
Proof.
  intros F P. unfold flatten. fold (outer_dir ss emb).
  destruct (flat_loop_flat (outer_dir ss emb) ss [] F P) as (r & A & B & C & D); auto; [exact I|].
  exists r. auto.
Qed.

(* ---- Reorder for flat paragraphs ---- *)
Lemma rev_blocks_forall {A} (P : A -> Prop) f (l : list A) : Forall P l -> Forall P (rev_blocks f [] l).
Proof. intros F. eapply Permutation_Forall; [|exact F]. symmetry. apply (rev_blocks_perm f l []). Qed.

Lemma Reorder_flat rl : flat (lv_scraps rl) -> scraps_ok (lv_scraps rl) ->
  exists runs, Reorder rl = Some runs /\ Forall run_ok runs /\ alternating None runs /\
    let visual := rev_blocks (opp (lv_emb rl)) [] (lv_scraps rl) in
    flat_map run_view runs = attributed (fun s => dirFromClass s (outer_dir visual (lv_emb rl))) visual.
Proof.
  intros F P. unfold Reorder. destruct (lv_scraps rl) as [|s t] eqn:E.
  - exists []. cbn. auto.
  - rewrite <- E in *. rewrite reorder_flat; auto.
    + cbn [obind]. apply flatten_flat; apply rev_blocks_forall; auto.
    + eapply Forall_impl; [|exact P]. intros x (_ & _ & _ & X). exact X.
Qed.

Lemma zlen_attr {B} (f : scrap -> B) ss : zlen (attributed f ss) = zlen (positions ss).
Proof.
  induction ss as [|s t IH]; [reflexivity|]. cbn [attributed positions flat_map].
  rewrite !zlen_app. unfold attributed, positions in IH. rewrite IH. unfold zlen. rewrite map_length. reflexivity.
Qed.

Lemma zlen_perm {A} (a b : list A) : Permutation a b -> zlen a = zlen b.
Proof. intros P. unfold zlen. now rewrite (Permutation_length P). Qed.

Lemma positions_perm a b : Permutation a b -> Permutation (positions a) (positions b).
Proof. intros P. unfold positions. apply Permutation_flat_map. exact P. Qed.

Lemma runs_len runs : Forall run_ok runs ->
  fold_right Z.add 0 (map r_len runs) = zlen (flat_map run_view runs).
Proof.
  induction 1 as [|r t R _ IH]; [reflexivity|]. cbn [map fold_right flat_map]. rewrite zlen_app, IH.
  destruct R as (_ & _ & _ & R). rewrite R. unfold run_view, zlen. rewrite map_length. reflexivity.
Qed.

(* C34 for flat paragraphs. *)
Lemma run_lengths rl runs : flat (lv_scraps rl) -> scraps_ok (lv_scraps rl) -> Reorder rl = Some runs ->
  fold_right Z.add 0 (map r_len runs) = fold_right Z.add 0 (map slen (lv_scraps rl)).
Proof.
  intros F P E. destruct (Reorder_flat rl F P) as (r' & E' & R & _ & V). rewrite E in E'. injection E' as <-.
  cbv zeta in V. rewrite runs_len, V, zlen_attr by auto.
  rewrite (zlen_perm _ _ (positions_perm _ _ (rev_blocks_perm (opp (lv_emb rl)) (lv_scraps rl) []))).
  cbn [app]. clear -P. induction P as [|s t Ps _ IH]; [reflexivity|].
  cbn [positions flat_map map fold_right]. rewrite zlen_app. unfold positions in IH. rewrite IH.
  rewrite (slen_proper s Ps). destruct Ps as (A & B & _). rewrite zrange_len by lia. reflexivity.
Qed.

(* C32: every position is delivered exactly once. *)
Lemma runs_once rl runs : flat (lv_scraps rl) -> scraps_ok (lv_scraps rl) -> Reorder rl = Some runs ->
  Permutation (flat_map (fun r => positions (r_scraps r)) runs) (positions (lv_scraps rl)).
Proof.
  intros F P E. destruct (Reorder_flat rl F P) as (r' & E' & R & _ & V). rewrite E in E'. injection E' as <-.
  cbv zeta in V.
  assert (X : flat_map (fun r => positions (r_scraps r)) runs = map fst (flat_map run_view runs)).
  { clear. induction runs as [|r t IH]; [reflexivity|]. cbn [flat_map]. rewrite map_app, IH. f_equal.
    unfold run_view. rewrite map_map. cbn [fst]. now rewrite map_id. }
  rewrite X, V.
  assert (Y : forall (f : scrap -> bool) ss, map fst (attributed f ss) = positions ss).
  { clear. intros f ss. induction ss as [|s t IH]; [reflexivity|]. cbn [attributed positions flat_map].
    rewrite map_app. unfold attributed, positions in IH. rewrite IH. f_equal. rewrite map_map. cbn [fst]. now rewrite map_id. }
  rewrite Y. apply (positions_perm _ _ (rev_blocks_perm (opp (lv_emb rl)) (lv_scraps rl) [])).
Qed.

(* ---- comparison with rule L2 ---- *)
Lemma rev_blocks_ext {A} (f g : A -> bool) l : (forall x, In x l -> f x = g x) ->
  forall acc, rev_blocks f acc l = rev_blocks g acc l.
Proof.
  induction l as [|x t IH]; intros E acc; simpl; auto. rewrite <- (E x) by (left; auto).
  destruct (f x); [|f_equal; f_equal]; apply IH; intros y H; apply E; right; auto.
Qed.

Lemma rev_blocks_all {A} (f : A -> bool) l : (forall x, In x l -> f x = true) -> forall acc, rev_blocks f acc l = rev l ++ acc.
Proof.
  induction l as [|x t IH]; intros E acc; simpl; auto. rewrite (E x) by (left; auto).
  rewrite IH by (intros y H; apply E; right; auto). now rewrite <- app_assoc.
Qed.

Lemma rev_blocks_apart l : numbers_apart l -> rev_blocks number [] l = l.
Proof.
  enough (G : forall l, numbers_apart l -> rev_blocks number [] l = l /\
    match l with x :: t => number x = true -> rev_blocks number [x] t = x :: t | [] => True end)
    by (intros H; apply G; auto).
  clear. induction l as [|x t IH]; intros N; [simpl; auto|].
  assert (NT : numbers_apart t) by (destruct t; simpl in *; tauto).
  destruct (IH NT) as [I1 I2].
  assert (X : number x = true -> rev_blocks number [x] t = x :: t).
  { intros E. destruct t as [|y u]; [reflexivity|]. simpl in N. destruct N as [N _]. rewrite E in N. cbn [andb] in N.
    cbn [rev_blocks] in I1 |- *. rewrite N in *. cbn [app] in *. f_equal. exact I1. }
  split; auto. cbn [rev_blocks]. destruct (number x) eqn:E; auto. cbn [app]. f_equal. exact I1.
Qed.

Lemma rule_L2_ltr ss : numbers_apart ss -> rule_L2 L2R ss = rev_blocks (opp L2R) [] ss.
Proof.
  intros N. unfold rule_L2.
  rewrite (rev_blocks_ext (fun s => 2 <=? uax_level L2R s) number).
  - rewrite rev_blocks_apart by auto. apply rev_blocks_ext. intros x _. unfold opp, level, uax_level, L2R.
    destruct ((clz x =? cEN) || (clz x =? cAN)); auto. rewrite andb_false_r, andb_true_r. cbn [orb].
    destruct (clz x =? cR); auto.
  - intros x _. unfold uax_level, number, L2R. destruct ((clz x =? cEN) || (clz x =? cAN)); auto. destruct (clz x =? cR); auto.
Qed.

Lemma rule_L2_rtl ss : rule_L2 R2L ss = rev (rev_blocks (opp R2L) [] ss).
Proof.
  unfold rule_L2. rewrite rev_blocks_all.
  - rewrite app_nil_r. f_equal. apply rev_blocks_ext. intros x _. unfold opp, level, uax_level, R2L.
    destruct (clz x =? cEN), (clz x =? cAN), (clz x =? cL), (clz x =? cR); reflexivity.
  - intros x _. unfold uax_level, R2L. destruct (_ || _); reflexivity.
Qed.
