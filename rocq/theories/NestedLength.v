(* NestedLength.v -- the lengths of the runs add up only if no isolate begins in the direction of the text before it. *)
From Coq Require Import List ZArith Lia Bool Permutation.
From Verif Require Import Base Scrap Reorder ReorderSpec ReorderProofs NestedRunsSpec NestedRuns.
Import ListNotations.
Open Scope Z_scope.

(* What remains true of runs that have lost a part. *)
Definition rw (r : Run) : Prop := r_scraps r <> [] /\ 0 < r_len r.
Definition lens (runs : list Run) : Z := fold_right Z.add 0 (map r_len runs).
Definition ld (runs : list Run) : bool := r_dir (last_run runs).
Definition hd_dir (runs : list Run) : option bool := option_map r_dir (hd_error runs).
Definition hd_view (v : list (Z * bool)) : option bool := option_map snd (hd_error v).
Definition first_of (a b : option bool) : option bool := match a with Some d => Some d | None => b end.
Definition grows (runs : list Run) (v : list (Z * bool)) (runs' : list Run) : Prop :=
  Forall rw runs' /\ ld runs' = last_dir (ld runs) v /\ hd_dir runs' = first_of (hd_dir runs) (hd_view v) /\ lens runs' <= lens runs + zlen v.

Lemma lens_app a b : lens (a ++ b) = lens a + lens b.
Proof. unfold lens. induction a as [|x a IH]; [cbn; lia|]. cbn [app map fold_right]. rewrite IH. lia. Qed.
Lemma lens_one r : lens [r] = r_len r.  Proof. cbn. lia. Qed.
Lemma zlen_app2 {A} (a b : list A) : zlen (a ++ b) = zlen a + zlen b.
Proof. unfold zlen. rewrite app_length. lia. Qed.
Lemma hd_view_app u v : hd_view (u ++ v) = first_of (hd_view u) (hd_view v).
Proof. destruct u; reflexivity. Qed.
Lemma grows_trans runs v r1 w r2 : grows runs v r1 -> grows r1 w r2 -> grows runs (v ++ w) r2.
Proof.
  intros (A1 & A2 & A3 & A4) (B1 & B2 & B3 & B4). split; [exact B1|]. split; [rewrite B2, A2, last_dir_app; reflexivity|]. split; [|rewrite zlen_app2; lia].
  rewrite B3, A3, hd_view_app. destruct (hd_dir runs); reflexivity.
Qed.
Lemma grows_refl runs : Forall rw runs -> grows runs [] runs.
Proof. intros R. split; [auto|]. split; [reflexivity|]. split; [destruct (hd_dir runs); reflexivity|]. unfold zlen. cbn. lia. Qed.
Lemma runs_snoc runs : Forall rw runs -> runs = [] \/ exists p x, runs = p ++ [x] /\ rw x /\ Forall rw p.
Proof.
  intros R. destruct runs as [|r t]; [now left|]. right. assert (N : r :: t <> []) by discriminate. destruct (exists_last N) as (p & x & E). exists p, x. rewrite E in R.
  apply Forall_app in R. destruct R as [R1 R2]. inversion R2; subst. auto.
Qed.
Lemma zget_last {A} (p : list A) x : zget (p ++ [x]) (zlen (p ++ [x]) - 1) = Some x.
Proof.
  unfold zget, zlen. rewrite app_length. cbn [length]. replace (Z.of_nat (length p + 1) - 1) with (Z.of_nat (length p)) by lia.
  replace (0 <=? Z.of_nat (length p)) with true by (symmetry; apply Z.leb_le; lia). replace (Z.of_nat (length p) <? Z.of_nat (length p + 1)) with true by (symmetry; apply Z.ltb_lt; lia). rewrite Nat2Z.id, nth_error_app2, Nat.sub_diag by lia. reflexivity.
Qed.
Lemma toward_len d l r : l <= r -> zlen (toward d l r) = r - l.
Proof. intros H. unfold toward, zlen. rewrite map_length. exact (zrange_len l r H). Qed.
Lemma toward_pos d l r : l < r -> hd_view (toward d l r) = Some d /\ forall x, last_dir x (toward d l r) = d.
Proof.
  intros H. unfold toward. assert (N : zrange l r <> []) by (intros E; pose proof (zrange_len l r ltac:(lia)) as L; rewrite E in L; cbn in L; lia).
  split; [destruct (zrange l r); [contradiction|reflexivity]|]. intros x. rewrite last_dir_const. destruct (zrange l r); [contradiction|reflexivity].
Qed.

Lemma extend_w s runs emb : proper s -> Forall rw runs ->
  exists runs', extendRuns s runs emb = Some runs' /\ grows runs (toward (dirFromClass s emb) (sl s) (sr s)) runs' /\ lens runs' = lens runs + (sr s - sl s).
Proof.
  intros P R. pose proof (slen_proper s P) as SL. unfold extendRuns. destruct (Z.eqb_spec (slen s) 0) as [E|E].
  - exists runs. assert (toward (dirFromClass s emb) (sl s) (sr s) = []) as -> by (unfold toward; rewrite zrange_nil by lia; reflexivity).
    split; [reflexivity|]. split; [now apply grows_refl|lia].
  - assert (LT : sl s < sr s) by (destruct P as (P1 & P2 & _); lia). pose proof (toward_len (dirFromClass s emb) (sl s) (sr s) ltac:(lia)) as TL.
    destruct (toward_pos (dirFromClass s emb) (sl s) (sr s) LT) as [TH TD]. unfold grows. rewrite TL, TH, TD.
    assert (RW : rw (run s emb)) by (split; [discriminate|cbn [run r_len]; lia]).
    destruct (runs_snoc runs R) as [->|(p & x & -> & X & RP)].
    + cbn [last_run last run0 r_len Z.eqb app]. exists [run s emb]. split; [reflexivity|]. rewrite lens_one. cbn [run r_len]. split; [|cbn [lens map fold_right]; lia].
      split; [constructor; auto|]. split; [reflexivity|]. split; [reflexivity|cbn [lens map fold_right]; lia].
    + unfold last_run. rewrite last_last. destruct X as [X1 X2]. destruct (Z.eqb_spec (r_len x) 0); [lia|].
      assert (HD : forall y, r_dir y = r_dir x -> hd_dir (p ++ [y]) = first_of (hd_dir (p ++ [x])) (Some (dirFromClass s emb))) by (intros y Y; destruct p; cbn; [now rewrite Y|reflexivity]).
      destruct (Bool.eqb (r_dir x) (dirFromClass s emb)) eqn:ED.
      * apply eqb_prop in ED. unfold concat. cbn [run r_len r_dir r_scraps]. destruct (Z.eqb_spec (slen s) 0); [contradiction|]. rewrite ED, eqb_reflx. cbn [negb].
        destruct (exists_last X1) as (q & z & EQ). rewrite EQ, zget_last. cbn [obind]. change (zget [s] 0) with (Some s). cbn [obind]. rewrite removelast_last.
        destruct (sr z =? sl s); eexists; (split; [reflexivity|]); rewrite removelast_last, !lens_app, !lens_one; cbn [r_len]; (split; [|lia]);
          (split; [apply Forall_app; split; [exact RP|constructor; [split; cbn [r_scraps r_len]; [destruct q; discriminate|lia]|constructor]]|]);
          (split; [unfold ld, last_run; rewrite last_last; reflexivity|]); (split; [apply HD; symmetry; exact ED|lia]).
      * exists ((p ++ [x]) ++ [run s emb]). split; [reflexivity|]. rewrite !lens_app, !lens_one. cbn [run r_len]. split; [|lia].
        split; [apply Forall_app; split; [apply Forall_app; split; auto; constructor; [split; auto|constructor]|auto]|].
        split; [unfold ld, last_run; rewrite last_last; reflexivity|]. split; [destruct p; reflexivity|lia].
Qed.

Lemma begins_hd v x : begins v x = match hd_view v with Some d => Bool.eqb d x | None => false end.
Proof. destruct v as [|[p b] v]; reflexivity. Qed.
Lemma append_w child runs v : Forall rw runs -> grows [] v child ->
  appendRuns child runs = None \/
  exists runs', appendRuns child runs = Some runs' /\ grows runs v runs' /\ (begins v (ld runs) = true -> lens runs' < lens runs + lens child) /\ lens runs' <= lens runs + lens child.
Proof.
  intros R (C1 & C2 & C3 & C4). cbn [hd_dir hd_error option_map first_of] in C3. change (lens [] + zlen v) with (zlen v) in C4. unfold appendRuns. destruct child as [|c t].
  - right. exists runs. split; [reflexivity|]. cbn [hd_dir hd_error option_map] in C3. assert (v = []) as -> by (destruct v as [|[]]; [reflexivity|discriminate C3]).
    split; [now apply grows_refl|]. split; [discriminate|cbn [lens map fold_right]; lia].
  - inversion C1 as [|? ? [X1 X2] Y]; subst. cbn [hd_dir hd_error option_map] in C3. rewrite begins_hd, <- C3. fold (ld runs).
    change (lens (c :: t)) with (r_len c + lens t) in *. destruct (Bool.eqb (r_dir c) (ld runs)) eqn:ED.
    + apply eqb_prop in ED. unfold concat_shared. destruct (Z.eqb_spec (r_len c) 0); [lia|].
      destruct (runs_snoc runs R) as [->|(p & x & -> & [Z1 Z2] & RP)]; [left; reflexivity|]. unfold ld, last_run in *. rewrite last_last in *.
      destruct (exists_last Z1) as (q & z & EQ). rewrite EQ, zget_last. cbn [obind]. destruct (r_scraps c) as [|w u] eqn:EC; [contradiction|]. change (zget (w :: u) 0) with (Some w). cbn [obind].
      assert (K : forall y, r_dir y = r_dir x -> r_len y = r_len x -> r_scraps y <> [] ->
        grows (p ++ [x]) v (p ++ y :: t) /\ (true = true -> lens (p ++ y :: t) < lens (p ++ [x]) + (r_len c + lens t)) /\ lens (p ++ y :: t) <= lens (p ++ [x]) + (r_len c + lens t)).
      { intros y Y1 Y2 Y3. rewrite !lens_app, lens_one. change (lens (y :: t)) with (r_len y + lens t). rewrite Y2. split; [|split; [intros _|]; lia].
        split; [apply Forall_app; split; auto; constructor; [split; [auto|lia]|auto]|]. split; [|split].
        - unfold ld, last_run. rewrite last_last. assert (NV : v <> []) by (intros ->; discriminate C3).
          change (ld (c :: t) = last_dir (ld []) v) in C2. unfold ld, last_run in C2. change (r_dir (last [] run0)) with L2R in C2.
          assert (LD : forall b, last_dir b v = last_dir L2R v) by (intros b; unfold last_dir; f_equal; apply last_default; auto). rewrite LD, <- C2.
          rewrite last_app_ne by discriminate. destruct t as [|t0 t1]; [cbn [last]; congruence|]. cbn [last]. f_equal.
        - destruct p; cbn; [now rewrite Y1|reflexivity].
        - rewrite !lens_app, lens_one. change (lens (y :: t)) with (r_len y + lens t). lia. }
      destruct (sr z =? sl w).
      * right. eexists. split; [cbn [obind]; reflexivity|]. rewrite removelast_last. apply K; [reflexivity|reflexivity|]. cbn [r_scraps]. intros HH. apply app_eq_nil in HH. destruct HH. discriminate.
      * right. eexists. split; [cbn [obind]; reflexivity|]. rewrite removelast_last. apply K; auto.
    + right. exists (runs ++ c :: t). split; [reflexivity|]. rewrite lens_app. change (lens (c :: t)) with (r_len c + lens t). split; [|split; [discriminate|lia]].
      split; [apply Forall_app; auto|]. split; [|split].
      * unfold ld, last_run. rewrite last_app_ne by discriminate. unfold ld, last_run in C2. cbn [last] in C2. change (last (c :: t) run0) with (match t with [] => c | _ :: _ => last t run0 end).
        assert (NV : v <> []) by (intros ->; discriminate C3). rewrite C2. unfold last_dir. f_equal. apply last_default. auto.
      * destruct runs; [cbn; exact C3|reflexivity].
      * rewrite lens_app. change (lens (c :: t)) with (r_len c + lens t). lia.
Qed.

(* ---- flatten ---- *)
Definition loses (emb : bool) (s : scrap) : Prop := forall runs, Forall rw runs ->
  flat_scrap emb s runs = None \/ exists runs', flat_scrap emb s runs = Some runs' /\ grows runs (view emb s) runs' /\
    (fits emb s (ld runs) = false -> lens runs' < lens runs + zlen (view emb s)).
Lemma loses_list emb ss : Forall (loses emb) ss -> forall runs, Forall rw runs ->
  flat_loop emb ss runs = None \/ exists runs', flat_loop emb ss runs = Some runs' /\ grows runs (flat_map (view emb) ss) runs' /\
    (all_fit emb ss (ld runs) = false -> lens runs' < lens runs + zlen (flat_map (view emb) ss)).
Proof.
  induction 1 as [|s t B _ IH]; intros runs R.
  - right. exists runs. split; [reflexivity|]. split; [now apply grows_refl|discriminate].
  - cbn [flat_loop all_fit flat_map]. destruct (B runs R) as [->|(r1 & E1 & G1 & L1)]; [left; reflexivity|]. rewrite E1. cbn [obind].
    destruct (IH r1 (proj1 G1)) as [->|(r2 & E2 & G2 & L2)]; [left; reflexivity|]. right. exists r2. split; [exact E2|]. split; [eapply grows_trans; eauto|].
    destruct G1 as (_ & D1 & _ & M1), G2 as (_ & _ & _ & M2). rewrite D1 in L2. rewrite zlen_app2. intros F. apply andb_false_iff in F. destruct F as [F|F]; [specialize (L1 F)|specialize (L2 F)]; lia.
Qed.

Lemma flat_loses s : node s -> forall emb, loses emb s.
Proof.
  induction s as [c l r d ks IH] using scrap_ind2. intros N emb. inversion N as [s0 P K NK E0]; subst s0. cbn [sl sr kids] in K, NK.
  intros runs R. rewrite flat_scrap_eq, view_eq, fits_eq. set (cd := dirFromClass (mks c l r d []) emb) in *.
  destruct P as (P1 & P2 & P3 & P4). cbn [sl sr clz] in *.
  assert (G : forall ks a s runs, clz s = c -> sl s = a -> sr s = r -> 0 <= a ->
    Forall (Forall (fun s => node s -> forall emb, loses emb s)) ks -> kids_at a ks r -> Forall (Forall node) ks -> Forall rw runs ->
    kid_loop emb s ks runs = None \/ exists runs', kid_loop emb s ks runs = Some runs' /\ grows runs (kid_views cd r a ks) runs' /\
      (kid_fits cd a ks (ld runs) = false -> lens runs' < lens runs + zlen (kid_views cd r a ks))).
  2:{ apply (G ks l (mks c l r d ks) runs); auto. }
  clear N K NK IH R runs ks. induction ks as [|ch t IHk]; intros a s runs S1 S2 S3 Ha IH K NK R.
  - cbn [kid_loop kid_views kids_at kid_fits] in *. destruct (extend_w s runs emb) as (r1 & E1 & E2 & E3); auto; [unfold proper; rewrite S1, S2, S3; lia|].
    right. exists r1. split; auto. split; [|discriminate]. rewrite S2, S3 in E2. replace cd with (dirFromClass s emb) by (unfold cd, dirFromClass; rewrite S1; reflexivity). exact E2.
  - cbn [kids_at] in K. destruct K as (x & y & (f & mid & e & ch' & -> & I & PE & M & PM & T & <- & <-) & K1 & K2).
    inversion IH as [|? ? IH1 IH2]; subst. inversion NK as [|? ? NK1 NK2]; subst. clear IH NK.
    pose proof (tiles_le _ _ _ T) as TL. pose proof (kids_le _ _ _ K2) as Y.
    cbn [kid_loop kid_views kid_fits app] in *. cbv zeta.
    replace (last (f :: mid ++ [e]) f) with e in * by (symmetry; exact (last_last (f :: mid) e f)).
    unfold cutScrapAt. set (cut := mks (clz s) (sl s) (sl f) dc0 []). set (rest := mks (clz s) (sr e) (sr s) dc0 []).
    destruct (extend_w cut runs emb) as (r1 & E1 & E2 & E3); auto; [unfold proper, cut; cbn [sl sr clz]; lia|].
    change (toward (dirFromClass cut emb) (sl cut) (sr cut)) with (toward cd (sl s) (sl f)) in E2.
    rewrite E1. cbn [obind]. destruct (initiator_dir f (r_dir (last_run r1)) I) as (I1 & I2 & I3). rewrite I1, I2.
    assert (BL : Forall (loses (dirFromClass f L2R)) (f :: mid ++ [e])).
    { apply Forall_forall. intros z Hz. rewrite Forall_forall in IH1, NK1. apply IH1; auto. }
    destruct (loses_list _ _ BL [] (Forall_nil _)) as [->|(rc & C1 & C2 & C3)]; [left; reflexivity|]. rewrite C1. cbn [obind].
    change (lens []) with 0 in C3. change (ld []) with L2R in C3. set (v := flat_map (view (dirFromClass f L2R)) (f :: mid ++ [e])) in *.
    destruct (append_w rc r1 v (proj1 E2) C2) as [->|(r2 & D1 & D2 & D3 & D4)]; [left; reflexivity|]. rewrite D1. cbn [obind].
    destruct (IHk (sr e) rest r2) as [->|(r3 & H1 & H2 & H3)]; auto; [lia|exact (proj1 D2)|]. right. exists r3. split; [exact H1|].
    split; [eapply grows_trans; [exact E2|]; eapply grows_trans; eauto|].
    pose proof (proj1 (proj2 E2)) as LD1. pose proof (proj1 (proj2 D2)) as LD2. rewrite <- LD1, <- LD2, !zlen_app2.
    pose proof (toward_len cd (sl s) (sl f) K1) as TW. rewrite TW. cbn [sl sr cut] in E3.
    pose proof (proj2 (proj2 (proj2 C2))) as CM. change (lens []) with 0 in CM. pose proof (proj2 (proj2 (proj2 H2))) as HM.
    intros F. apply andb_false_iff in F. destruct F as [F|F]; [|specialize (H3 F); lia]. apply andb_false_iff in F. destruct F as [F|F].
    + specialize (C3 F). lia.
    + apply negb_false_iff in F. specialize (D3 F). lia.
Qed.

Lemma flatten_loses ss emb : Forall node ss -> all_fit (outer_dir ss emb) ss L2R = false ->
  flatten ss emb = None \/ exists runs, flatten ss emb = Some runs /\ lens runs < zlen (flat_map (view (outer_dir ss emb)) ss).
Proof.
  intros N F. unfold flatten. fold (outer_dir ss emb). destruct (loses_list (outer_dir ss emb) ss) with (runs := @nil Run) as [H|(r & A & B & C)]; auto.
  - eapply Forall_impl; [|exact N]. intros s Hs. now apply flat_loses.
  - right. exists r. split; [exact A|]. specialize (C F). change (lens []) with 0 in C. lia.
Qed.

(* The lengths add up exactly if no isolate begins in the direction of the text before it. *)
Theorem lengths_exact rl : Forall node (lv_scraps rl) ->
  let vis := arranged (lv_emb rl) (lv_scraps rl) in
  (exists runs, Reorder rl = Some runs /\ fold_right Z.add 0 (map r_len runs) = fold_right Z.add 0 (map slen (lv_scraps rl))) <->
  all_fit (outer_dir vis (lv_emb rl)) vis L2R = true.
Proof.
  intros N vis. split.
  - intros (runs & E & L). destruct (all_fit (outer_dir vis (lv_emb rl)) vis L2R) eqn:F; [reflexivity|exfalso].
    assert (NV : Forall node vis).
    { apply rev_blocks_forall. apply Forall_map. eapply Forall_impl; [|exact N]. intros x Hx. now apply node_arrange. }
    pose proof (flatten_loses vis (lv_emb rl) NV F) as H.
    assert (ER : Reorder rl = flatten vis (lv_emb rl)).
    { unfold Reorder. destruct (lv_scraps rl) as [|s t] eqn:ES; [unfold vis; rewrite ?ES; reflexivity|].
      unfold vis. rewrite <- ES in *. unfold reorder. rewrite (visit_map (arrange (lv_emb rl))).
      - cbn [obind]. rewrite (proj1 (order_loop_spec (lv_emb rl) _ (arranged_clz (lv_emb rl) _ N))). reflexivity.
      - eapply Forall_impl; [|exact N]. intros x Hx. now apply node_clz.
      - eapply Forall_impl; [|exact N]. intros x Hx. now apply reorder_arrange. }
    rewrite <- ER, E in H. destruct H as [H|(r & H & LT)]; [discriminate|]. injection H as <-. unfold lens in LT. rewrite L in LT.
    assert (Y := arranged_once (lv_emb rl) (outer_dir vis (lv_emb rl)) (lv_scraps rl) N). fold vis in Y. apply Permutation_length in Y. rewrite map_length in Y.
    unfold zlen in LT. rewrite Y in LT. rewrite positions_len in LT by auto. lia.
  - intros F. destruct (Reorder_nested rl N F) as (runs & E & _). exists runs. split; [exact E|]. apply (nested_once rl runs N F E).
Qed.

(* What happens to the runs of an isolate that begins in the direction of the run before it: its first run is lost,
   except that the first scrap of it is seen in the run before if it follows directly. *)
Lemma append_exact p x xs a c f cs t : r_scraps x = xs ++ [a] -> r_scraps c = f :: cs -> r_len c <> 0 -> sl a <= sr a -> sl f <= sr f ->
  (r_dir c <> r_dir x -> appendRuns (c :: t) (p ++ [x]) = Some (p ++ [x] ++ c :: t)) /\
  (r_dir c = r_dir x -> exists x', appendRuns (c :: t) (p ++ [x]) = Some (p ++ x' :: t) /\ r_len x' = r_len x /\ r_dir x' = r_dir x /\
     positions (r_scraps x') = positions (r_scraps x) ++ (if sr a =? sl f then zrange (sl f) (sr f) else [])).
Proof.
  intros X C N LA LF. unfold appendRuns. assert (last_run (p ++ [x]) = x) as -> by (unfold last_run; apply last_last). split; intros D.
  - apply eqb_false_iff in D. rewrite D, <- app_assoc. reflexivity.
  - rewrite D, eqb_reflx. unfold concat_shared. apply Z.eqb_neq in N. rewrite N, X, zget_last. cbn [obind].
    assert (zget (r_scraps c) 0 = Some f) as -> by (rewrite C; unfold zget, zlen; cbn [length]; replace (0 <? Z.of_nat (S (length cs))) with true by (symmetry; apply Z.ltb_lt; lia); reflexivity).
    cbn [obind]. destruct (Z.eqb_spec (sr a) (sl f)) as [E|E]; cbn [obind]; rewrite !removelast_last.
    + eexists. split; [reflexivity|]. cbn [r_len r_dir r_scraps]. split; [reflexivity|]. split; [auto|].
      unfold positions. rewrite !flat_map_app. cbn [flat_map sl sr with_lr]. rewrite !app_nil_r, <- app_assoc. f_equal.
      rewrite <- E at 1. rewrite (zrange_app (sl a) (sr a) (sr f)) by lia. reflexivity.
    + exists x. split; [reflexivity|]. rewrite X, app_nil_r. auto.
Qed.
