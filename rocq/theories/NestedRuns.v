(* NestedRuns.v -- reordering and run building for paragraphs with nested isolates. *)
From Coq Require Import List ZArith Lia Bool Permutation.
From Verif Require Import Base Scrap Reorder ReorderSpec ReorderProofs NestedRunsSpec.
Import ListNotations.
Open Scope Z_scope.

(* induction over trees of scraps *)
Section Ind.
Context (P : scrap -> Prop) (H : forall c l r d ks, Forall (Forall P) ks -> P (mks c l r d ks)).
Fixpoint scrap_ind2 (s : scrap) : P s :=
  match s with
  | mks c l r d ks =>
      H c l r d ks ((fix go (ks : list (list scrap)) : Forall (Forall P) ks :=
        match ks with
        | [] => Forall_nil _
        | ch :: t => Forall_cons ch ((fix all (l : list scrap) : Forall P l :=
            match l with [] => Forall_nil _ | x :: l => Forall_cons x (scrap_ind2 x) (all l) end) ch) (go t)
        end) ks)
  end.
End Ind.

(* ---- the recursions by name ---- *)
Fixpoint kid_views (c : bool) (r a : Z) (ks : list (list scrap)) : list (Z * bool) :=
  match ks with
  | [] => toward c a r
  | [] :: t => kid_views c r a t
  | (f :: _) as ch :: t => toward c a (sl f) ++ flat_map (view (dirFromClass f L2R)) ch ++ kid_views c r (sr (last ch f)) t
  end.
Lemma dir_kids c l r d ks emb : dirFromClass (mks c l r d ks) emb = dirFromClass (mks c l r d []) emb.
Proof. reflexivity. Qed.
Lemma view_eq emb c l r d ks : view emb (mks c l r d ks) = kid_views (dirFromClass (mks c l r d []) emb) r l ks.
Proof.
  unfold view; fold view. set (D := dirFromClass (mks c l r d []) emb). clearbody D. revert l. induction ks as [|ch t IH]; intros l; [reflexivity|].
  destruct ch as [|f u]; [apply IH|]. cbn [kid_views]. f_equal. f_equal. apply IH.
Qed.
Fixpoint kid_fits (c : bool) (a : Z) (ks : list (list scrap)) (d : bool) : bool :=
  match ks with
  | [] => true
  | [] :: t => kid_fits c a t d
  | (f :: _) as ch :: t =>
      let e := dirFromClass f L2R in let before := last_dir d (toward c a (sl f)) in let v := flat_map (view e) ch in
      all_fit e ch L2R && negb (begins v before) && kid_fits c (sr (last ch f)) t (last_dir before v)
  end.
Lemma fits_eq emb c l r x ks d : fits emb (mks c l r x ks) d = kid_fits (dirFromClass (mks c l r x []) emb) l ks d.
Proof.
  unfold fits; fold fits. set (D := dirFromClass (mks c l r x []) emb). clearbody D. revert l d. induction ks as [|ch t IH]; intros l d; [reflexivity|].
  destruct ch as [|f u]; [apply IH|]. cbn [kid_fits]. cbv zeta. rewrite IH. f_equal. f_equal.
  change (all_fit (dirFromClass f L2R) (f :: u) L2R) with (fits (dirFromClass f L2R) f L2R && all_fit (dirFromClass f L2R) u (last_dir L2R (view (dirFromClass f L2R) f))).
  f_equal. generalize (last_dir L2R (view (dirFromClass f L2R) f)). induction u as [|y u IHu]; intros b; [reflexivity|]. cbn [all_fit]. f_equal. apply IHu.
Qed.
Fixpoint kid_loop (emb : bool) (s : scrap) (ks : list (list scrap)) (runs : list Run) : option (list Run) :=
  match ks with
  | [] => extendRuns s runs emb
  | [] :: t => kid_loop emb s t runs
  | (f :: _) as ch :: t =>
      let (cut, rest) := cutScrapAt s f (last ch f) in
      do runs <- extendRuns cut runs emb;
      let emb' := if isisolate f then dirFromClass f (r_dir (last_run runs)) else r_dir (last_run runs) in
      do chruns <- flat_loop emb' ch [];
      do runs <- appendRuns chruns runs;
      kid_loop emb rest t runs
  end.
Lemma flat_scrap_eq emb c l r d ks runs : flat_scrap emb (mks c l r d ks) runs = kid_loop emb (mks c l r d ks) ks runs.
Proof.
  unfold flat_scrap; fold flat_scrap. generalize (mks c l r d ks) as s. revert runs.
  induction ks as [|ch t IH]; intros runs s; [reflexivity|].
  destruct ch as [|f u]; [apply IH|]. cbn [kid_loop]. destruct (cutScrapAt s f (last (f :: u) f)) as [cut rest].
  destruct (extendRuns cut runs emb) as [rs|]; [|reflexivity]. cbn [obind]. unfold flat_loop.
  match goal with |- obind ?X _ = obind ?Y _ => change Y with X; destruct X as [rr|]; [|reflexivity] end.
  cbn [obind]. destruct (appendRuns rr rs) as [rs2|]; [|reflexivity]. cbn [obind]. apply IH.
Qed.

(* ---- runs and directions ---- *)
Lemma view_run_ne r : run_ok r -> exists p t, run_view r = (p, r_dir r) :: t.
Proof.
  intros (R1 & R2 & R3 & R4). unfold run_view. destruct (positions (r_scraps r)) as [|p t]; [unfold zlen in R4; cbn in R4; lia|].
  exists p, (map (fun p => (p, r_dir r)) t). reflexivity.
Qed.
Lemma last_map_snd {A} (d : A) (b : bool) l : last (map (fun p : Z => (p, b)) l) (0, b) = (last (0 :: l) 0, b) \/ l = [].
Proof. destruct l as [|x l]; [now right|]. left. revert x. induction l as [|y l IH]; intros x; [reflexivity|]. exact (IH y). Qed.
Lemma last_app_ne {A} (a b : list A) d : b <> [] -> last (a ++ b) d = last b d.
Proof.
  intros H. destruct (exists_last H) as (p & x & ->). rewrite app_assoc, !last_last. reflexivity.
Qed.
Lemma last_default {A} (l : list A) d e : l <> [] -> last l d = last l e.
Proof. intros H. destruct (exists_last H) as (p & x & ->). now rewrite !last_last. Qed.
Lemma last_dir_app d u v : last_dir d (u ++ v) = last_dir (last_dir d u) v.
Proof.
  unfold last_dir. destruct v as [|x v].
  - rewrite app_nil_r. reflexivity.
  - rewrite last_app_ne by discriminate. f_equal. apply last_default. discriminate.
Qed.
Lemma last_dir_const d b l : last_dir d (map (fun p : Z => (p, b)) l) = match l with [] => d | _ => b end.
Proof.
  unfold last_dir. destruct l as [|x l]; [reflexivity|]. revert x. induction l as [|y l IH]; intros x; [reflexivity|]. exact (IH y).
Qed.
Lemma runs_last runs : Forall run_ok runs -> r_dir (last_run runs) = last_dir L2R (flat_map run_view runs).
Proof.
  intros F. destruct runs as [|r t]; [reflexivity|]. assert (N : r :: t <> []) by discriminate.
  destruct (exists_last N) as (p & x & E). rewrite E in *. unfold last_run. rewrite last_last, flat_map_app, last_dir_app.
  cbn [flat_map]. rewrite app_nil_r. apply Forall_app in F. destruct F as [_ F]. inversion F as [|? ? X _]; subst.
  destruct (view_run_ne x X) as (q & u & V). pose proof V as V'. unfold run_view in *. rewrite last_dir_const.
  destruct (positions (r_scraps x)); [discriminate|reflexivity].
Qed.
Lemma runs_begin r t d : run_ok r -> begins (flat_map run_view (r :: t)) d = Bool.eqb (r_dir r) d.
Proof. intros R. destruct (view_run_ne r R) as (p & u & V). cbn [flat_map]. rewrite V. reflexivity. Qed.
Lemma alternating_app a b : forall d, alternating d a -> alternating (match a with [] => d | _ => Some (r_dir (last_run a)) end) b -> alternating d (a ++ b).
Proof.
  induction a as [|x t IH]; intros d A B; [exact B|]. cbn [app alternating] in *. destruct A as [A1 A2]. split; auto. apply IH; auto.
  destruct t; auto.
Qed.

Lemma append_ok child runs : Forall run_ok child -> alternating None child -> Forall run_ok runs -> alternating None runs ->
  begins (flat_map run_view child) (last_dir L2R (flat_map run_view runs)) = false ->
  exists runs', appendRuns child runs = Some runs' /\ Forall run_ok runs' /\ alternating None runs' /\
    flat_map run_view runs' = flat_map run_view runs ++ flat_map run_view child.
Proof.
  intros C1 C2 R1 R2 B. unfold appendRuns. destruct child as [|c t].
  - exists runs. cbn [flat_map]. rewrite app_nil_r. auto.
  - rewrite <- runs_last in B by auto. inversion C1 as [|? ? X Y]; subst. rewrite runs_begin in B by auto. rewrite B.
    exists (runs ++ c :: t). split; [reflexivity|]. split; [apply Forall_app; auto|]. rewrite flat_map_app. split; [|reflexivity].
    apply alternating_app; auto. destruct runs as [|r0 u]; auto. cbn [alternating] in C2 |- *. destruct C2 as [_ C2]. split; auto.
    intros E. injection E as E. rewrite <- E, eqb_reflx in B. discriminate.
Qed.

(* ---- flatten ---- *)
Lemma initiator_dir f d : initiator f -> isisolate f = true /\ dirFromClass f d = dirFromClass f L2R /\ dirFromClass f L2R = (clz f =? cRLI).
Proof. intros [E|E]; unfold isisolate, dirFromClass; rewrite E; auto. Qed.

Definition builds (emb : bool) (s : scrap) : Prop := forall runs, Forall run_ok runs -> alternating None runs ->
  fits emb s (last_dir L2R (flat_map run_view runs)) = true ->
  exists runs', flat_scrap emb s runs = Some runs' /\ Forall run_ok runs' /\ alternating None runs' /\
    flat_map run_view runs' = flat_map run_view runs ++ view emb s.

Lemma builds_list emb ss : Forall (builds emb) ss -> forall runs, Forall run_ok runs -> alternating None runs ->
  all_fit emb ss (last_dir L2R (flat_map run_view runs)) = true ->
  exists runs', flat_loop emb ss runs = Some runs' /\ Forall run_ok runs' /\ alternating None runs' /\
    flat_map run_view runs' = flat_map run_view runs ++ flat_map (view emb) ss.
Proof.
  induction 1 as [|s t B _ IH]; intros runs R A F.
  - exists runs. cbn [flat_loop flat_map]. rewrite app_nil_r. auto.
  - cbn [all_fit] in F. apply andb_true_iff in F. destruct F as [F1 F2].
    destruct (B runs R A F1) as (r1 & E1 & E2 & E3 & E4).
    rewrite <- last_dir_app, <- E4 in F2. destruct (IH r1 E2 E3 F2) as (r2 & G1 & G2 & G3 & G4).
    exists r2. cbn [flat_loop]. rewrite E1. cbn [obind]. split; [exact G1|]. split; auto. split; auto.
    rewrite G4, E4. cbn [flat_map]. now rewrite <- app_assoc.
Qed.

Lemma tiles_le : forall ss a b, tiles a ss b -> a <= b.
Proof. induction ss as [|s t IH]; intros a b T; cbn in T; [lia|]. destruct T as (T1 & T2 & T3). apply IH in T3. lia. Qed.

Lemma flat_builds s : node s -> forall emb, builds emb s.
Proof.
  induction s as [c l r d ks IH] using scrap_ind2. intros N emb. inversion N as [s0 P K NK E0]; subst s0. cbn [sl sr kids] in K, NK.
  intros runs R A F. rewrite flat_scrap_eq, view_eq. rewrite fits_eq in F.
  set (cd := dirFromClass (mks c l r d []) emb) in *.
  destruct P as (P1 & P2 & P3 & P4). cbn [sl sr clz] in *.
  assert (G : forall ks a s runs, clz s = c -> sl s = a -> sr s = r -> 0 <= a ->
    Forall (Forall (fun s => node s -> forall emb, builds emb s)) ks -> kids_at a ks r -> Forall (Forall node) ks ->
    Forall run_ok runs -> alternating None runs -> kid_fits cd a ks (last_dir L2R (flat_map run_view runs)) = true ->
    exists runs', kid_loop emb s ks runs = Some runs' /\ Forall run_ok runs' /\ alternating None runs' /\
      flat_map run_view runs' = flat_map run_view runs ++ kid_views cd r a ks).
  2:{ apply (G ks l (mks c l r d ks) runs); auto. }
  clear N K NK IH R A F runs ks. induction ks as [|ch t IHk]; intros a s runs S1 S2 S3 Ha IH K NK R A F.
  - cbn [kid_loop kid_views kids_at] in *.
    destruct (extend_flat s runs emb) as (r1 & E1 & E2 & E3 & E4); auto; [unfold proper; rewrite S1, S2, S3; lia|].
    exists r1. split; auto. split; auto. split; auto. rewrite E4, S2, S3. f_equal.
    unfold toward, cd, dirFromClass. rewrite S1. reflexivity.
  - cbn [kids_at] in K. destruct K as (x & y & (f & mid & e & ch' & -> & I & PE & M & PM & T & <- & <-) & K1 & K2).
    inversion IH as [|? ? IH1 IH2]; subst. inversion NK as [|? ? NK1 NK2]; subst. clear IH NK.
    pose proof (tiles_le _ _ _ T) as TL.
    assert (Y : sr e <= sr s).
    { clear -K2. remember (sr s) as z. clear Heqz. revert K2. generalize (sr e). induction t as [|q t IHt]; intros w K; cbn in K; [lia|].
      destruct K as (x & y & (f & mid & e' & ch' & -> & _ & _ & _ & _ & T & <- & <-) & K1 & K2). apply IHt in K2. apply tiles_le in T. lia. }
    cbn [kid_loop kid_views kid_fits app] in *. cbv zeta in F. 
    replace (last (f :: mid ++ [e]) f) with e in * by (symmetry; exact (last_last (f :: mid) e f)).
    unfold cutScrapAt. apply andb_true_iff in F. destruct F as [F F3]. apply andb_true_iff in F. destruct F as [F1 F2]. apply negb_true_iff in F2.
    set (cut := mks (clz s) (sl s) (sl f) dc0 []). set (rest := mks (clz s) (sr e) (sr s) dc0 []).
    destruct (extend_flat cut runs emb) as (r1 & E1 & E2 & E3 & E4); auto; [unfold proper, cut; cbn [sl sr clz]; lia|].
    assert (E5 : map (fun p => (p, dirFromClass cut emb)) (zrange (sl cut) (sr cut)) = toward cd (sl s) (sl f)) by reflexivity.
    rewrite E1. cbn [obind]. destruct (initiator_dir f (r_dir (last_run r1)) I) as (I1 & I2 & I3). rewrite I1, I2.
    assert (BL : Forall (builds (dirFromClass f L2R)) (f :: mid ++ [e])).
    { apply Forall_forall. intros z Hz. rewrite Forall_forall in IH1, NK1. apply IH1; auto. }
    destruct (builds_list _ _ BL [] (Forall_nil _) Logic.I F1) as (rc & C1 & C2 & C3 & C4).
    change (flat_map run_view rc = flat_map (view (dirFromClass f L2R)) (f :: mid ++ [e])) in C4.
    rewrite C1. cbn [obind].
    destruct (append_ok rc r1 C2 C3 E2 E3) as (r2 & D1 & D2 & D3 & D4).
    { rewrite C4, E4, E5, last_dir_app. exact F2. }
    rewrite D1. cbn [obind].
    destruct (IHk (sr e) rest r2) as (r3 & H1 & H2 & H3 & H4); auto.
    { lia. }
    { rewrite D4, E4, E5, C4, !last_dir_app. exact F3. }
    exists r3. split; [exact H1|]. split; auto. split; auto.
    rewrite H4, D4, E4, E5, C4. rewrite <- !app_assoc. reflexivity.
Qed.

Lemma flatten_nested ss emb : Forall node ss -> all_fit (outer_dir ss emb) ss L2R = true ->
  exists runs, flatten ss emb = Some runs /\ Forall run_ok runs /\ alternating None runs /\
    flat_map run_view runs = flat_map (view (outer_dir ss emb)) ss.
Proof.
  intros N F. unfold flatten. fold (outer_dir ss emb).
  destruct (builds_list (outer_dir ss emb) ss) with (runs := @nil Run) as (r & A & B & C & D); auto.
  - eapply Forall_impl; [|exact N]. intros s Hs. now apply flat_builds.
  - exact Logic.I.
  - exists r. auto.
Qed.

(* ---- reorder ---- *)
Lemma arrange_clz emb s : clz (arrange emb s) = clz s.  Proof. destruct s; reflexivity. Qed.
Lemma arrange_sl emb s : sl (arrange emb s) = sl s.  Proof. destruct s; reflexivity. Qed.
Lemma arrange_sr emb s : sr (arrange emb s) = sr s.  Proof. destruct s; reflexivity. Qed.
Lemma arrange_iso emb s : isisolate (arrange emb s) = isisolate s.  Proof. unfold isisolate. now rewrite arrange_clz. Qed.
Lemma arrange_opp emb d s : opp d (arrange emb s) = opp d s.  Proof. unfold opp, level. now rewrite arrange_clz. Qed.
Lemma node_clz s : node s -> clz s <> cNULL.
Proof. intros [? (_ & _ & _ & P) _ _]. exact P. Qed.

Lemma rev_blocks_snoc {A} (f : A -> bool) e l : f e = false -> forall acc, rev_blocks f acc (l ++ [e]) = rev_blocks f acc l ++ [e].
Proof.
  intros E. induction l as [|x l IH]; intros acc; cbn [app rev_blocks].
  - rewrite E. reflexivity.
  - destruct (f x); [apply IH|]. rewrite IH, <- app_assoc. reflexivity.
Qed.
Lemma opp_isolate d s : isisolate s = true -> opp d s = false.
Proof.
  unfold isisolate, opp, level. intros H. repeat (apply orb_true_iff in H; destruct H as [H|H]); apply Z.eqb_eq in H; rewrite H; reflexivity.
Qed.
Lemma turn_closed {A} (f e : A) mid : turn (f :: mid ++ [e]) = f :: rev mid ++ [e].
Proof.
  unfold turn. destruct (mid ++ [e]) as [|x r] eqn:E; [destruct mid; discriminate|]. rewrite <- E. rewrite removelast_last, last_last. reflexivity.
Qed.
Lemma without_isolates f mid e : isisolate f = true -> isisolate e = true -> reverseWithoutIsolates (f :: mid ++ [e]) = f :: rev mid ++ [e].
Proof.
  intros F E. unfold reverseWithoutIsolates. replace (last (f :: mid ++ [e]) f) with e by (symmetry; exact (last_last (f :: mid) e f)). rewrite F, E.
  cbn [length]. rewrite app_length. cbn [length]. replace (S (length mid + 1) - 1)%nat with (S (length mid)) by lia.
  replace (1 <=? S (length mid))%nat with true by (symmetry; apply Nat.leb_le; lia).
  unfold reverse_seg. cbn [firstn skipn app]. replace (S (length mid) - 1)%nat with (length mid) by lia.
  rewrite firstn_app, Nat.sub_diag, firstn_O, app_nil_r, firstn_all.
  replace (skipn (length mid) (mid ++ [e])) with [e]; [reflexivity|]. rewrite skipn_app, Nat.sub_diag, skipn_all. reflexivity.
Qed.
Lemma visit_map g f ss : Forall (fun s => clz s <> cNULL) ss -> Forall (fun s => f s = Some (g s)) ss -> visit f ss = Some (map g ss).
Proof.
  intros N F. induction F as [|s t E _ IH]; [reflexivity|]. inversion N as [|? ? N1 N2]; subst.
  cbn [visit map]. rewrite E. cbn [obind]. destruct (Z.eqb_spec (clz s) cNULL); [contradiction|].
  fold (visit f). rewrite IH by auto. reflexivity.
Qed.
Lemma mapM_map {A B} (g : A -> B) f l : Forall (fun x => f x = Some (g x)) l -> mapM f l = Some (map g l).
Proof. induction 1 as [|x t E _ IH]; [reflexivity|]. cbn [mapM map]. rewrite E. cbn [obind]. fold (mapM f). rewrite IH. reflexivity. Qed.

Lemma kids_closed ks : forall a b, kids_at a ks b -> Forall (fun ch => exists x y, closed ch x y) ks.
Proof. induction ks as [|ch t IH]; intros a b K; [constructor|]. cbn in K. destruct K as (x & y & C & _ & K). constructor; eauto. Qed.

Definition inner (dir : bool) (ch : list scrap) : list scrap := rev_blocks (opp dir) [] (map (arrange dir) ch).
Lemma rev_blocks_map {A} (g : A -> A) f l : (forall x, f (g x) = f x) -> forall acc, rev_blocks f (map g acc) (map g l) = map g (rev_blocks f acc l).
Proof.
  intros H. induction l as [|x l IH]; intros acc; cbn [map rev_blocks]; [reflexivity|]. rewrite H. destruct (f x).
  - exact (IH (x :: acc)).
  - rewrite map_app. cbn [map]. f_equal. f_equal. exact (IH []).
Qed.
Lemma inner_eq dir ch : inner dir ch = map (arrange dir) (rev_blocks (opp dir) [] ch).
Proof. unfold inner. apply (rev_blocks_map (arrange dir) (opp dir) ch (arrange_opp dir dir) []). Qed.
Lemma closed_shape dir f mid e : isisolate f = true -> isisolate e = true ->
  inner dir (f :: mid ++ [e]) = arrange dir f :: inner dir mid ++ [arrange dir e].
Proof.
  intros F E. rewrite !inner_eq. cbn [rev_blocks]. rewrite (opp_isolate dir f F). rewrite rev_blocks_snoc by (now apply opp_isolate).
  cbn [map app]. rewrite map_app. reflexivity.
Qed.
Lemma initiator_iso f : initiator f -> isisolate f = true.
Proof. intros [E|E]; unfold isisolate; rewrite E; reflexivity. Qed.
Lemma pdi_iso e : clz e = cPDI -> isisolate e = true.
Proof. intros E; unfold isisolate; rewrite E; reflexivity. Qed.

Lemma arranged_clz dir ss : Forall node ss -> Forall (fun s => clz s <> cNULL) (map (arrange dir) ss).
Proof. intros N. apply Forall_map. eapply Forall_impl; [|exact N]. intros s Hs. cbn. rewrite arrange_clz. now apply node_clz. Qed.

Lemma reorder_arrange s : node s -> forall emb, reorder_kids emb s = Some (arrange emb s).
Proof.
  induction s as [c l r d ks IH] using scrap_ind2. intros N emb. inversion N as [s0 P K NK E0]; subst s0. cbn [sl sr kids] in *.
  cbn [reorder_kids arrange]. apply kids_closed in K.
  rewrite (mapM_map (fun ch => let i := inner (dir_of ch) ch in if Bool.eqb (dir_of ch) emb then i else turn i)).
  - cbn [obind]. reflexivity.
  - rewrite Forall_forall in IH, NK, K. apply Forall_forall. intros ch Hch. specialize (IH ch Hch). specialize (NK ch Hch).
    destruct (K ch Hch) as (x & y & f & mid & e & ch' & -> & I & PE & M & _). 
    replace (findEmbeddingDir (f :: mid ++ [e]) emb) with (Some (dir_of (f :: mid ++ [e]))) by (cbn; destruct I as [->| ->]; reflexivity).
    cbn [obind]. set (dir := dir_of (f :: mid ++ [e])).
    rewrite (visit_map (arrange dir)).
    + cbn [obind]. rewrite (proj1 (order_loop_spec dir _ (arranged_clz dir _ NK))).
      cbn [app]. change (rev_blocks (opp dir) [] (map (arrange dir) (f :: mid ++ [e]))) with (inner dir (f :: mid ++ [e])).
      cbv zeta. destruct (Bool.eqb dir emb); [reflexivity|].
      rewrite closed_shape by (auto using initiator_iso, pdi_iso). rewrite turn_closed, without_isolates; auto; rewrite arrange_iso; auto using initiator_iso, pdi_iso.
    + eapply Forall_impl; [|exact NK]. intros s Hs. now apply node_clz.
    + apply Forall_forall. intros s Hs. rewrite Forall_forall in IH, NK. apply IH; auto.
Qed.

(* rearranging keeps the tree well-formed *)
Lemma inner_perm dir ch : Permutation (inner dir ch) (map (arrange dir) ch).
Proof. unfold inner. apply (rev_blocks_perm (opp dir) (map (arrange dir) ch) []). Qed.
Lemma tiles_map dir : forall ch a b, tiles a ch b -> tiles a (map (arrange dir) ch) b.
Proof.
  induction ch as [|s t IH]; intros a b T; [exact T|]. cbn [map tiles] in *. rewrite arrange_sl, arrange_sr. destruct T as (T1 & T2 & T3). repeat split; auto.
Qed.
Lemma closed_arrange ch x y (emb : bool) : closed ch x y -> let dir := dir_of ch in let i := inner dir ch in closed (if Bool.eqb dir emb then i else turn i) x y.
Proof.
  intros (f & mid & e & ch' & -> & I & PE & M & PM & T & <- & <-) dir i.
  assert (S : i = arrange dir f :: inner dir mid ++ [arrange dir e]) by (apply closed_shape; auto using initiator_iso, pdi_iso).
  assert (Q : Permutation i (map (arrange dir) ch')) by (unfold i; rewrite inner_perm; apply Permutation_map; exact PM).
  assert (MI : Forall (fun s => isisolate s = false) (inner dir mid)).
  { eapply Permutation_Forall; [symmetry; apply inner_perm|]. apply Forall_map. eapply Forall_impl; [|exact M]. intros s Hs. cbn. now rewrite arrange_iso. }
  assert (I' : initiator (arrange dir f)) by (unfold initiator; rewrite arrange_clz; exact I).
  assert (PE' : clz (arrange dir e) = cPDI) by (rewrite arrange_clz; exact PE).
  pose proof (tiles_map dir _ _ _ T) as T'. 
  destruct (Bool.eqb dir emb).
  - exists (arrange dir f), (inner dir mid), (arrange dir e), (map (arrange dir) ch'). rewrite arrange_sl, arrange_sr. repeat split; auto.
  - exists (arrange dir f), (rev (inner dir mid)), (arrange dir e), (map (arrange dir) ch'). rewrite arrange_sl, arrange_sr.
    rewrite S, turn_closed. repeat split; auto.
    + apply Forall_rev. exact MI.
    + rewrite <- Q, S. constructor. apply Permutation_app_tail. symmetry. apply Permutation_rev.
Qed.
Lemma turn_perm {A} (l : list A) : Permutation (turn l) l.
Proof.
  destruct l as [|f [|x r]]; try reflexivity. unfold turn. constructor.
  assert (NE : x :: r <> []) by discriminate. rewrite (app_removelast_last f NE) at 3. apply Permutation_app_tail. symmetry. apply Permutation_rev.
Qed.
Lemma node_arrange s : node s -> forall emb, node (arrange emb s).
Proof.
  induction s as [c l r d ks IH] using scrap_ind2. intros N emb. inversion N as [s0 P K NK E0]; subst s0. cbn [sl sr kids] in *.
  cbn [arrange]. constructor; cbn [sl sr kids]; [exact P| |].
  - clear -K. revert l K. induction ks as [|ch t IHk]; intros l K; [exact K|]. cbn [map kids_at] in *. destruct K as (x & y & C & K1 & K2).
    exists x, y. split; [apply (closed_arrange ch x y emb C)|]. split; auto.
  - rewrite Forall_forall in IH, NK. apply Forall_forall. intros q Hq. apply in_map_iff in Hq. destruct Hq as (ch & <- & Hch).
    specialize (IH ch Hch). specialize (NK ch Hch). cbv zeta.
    assert (B : Forall node (inner (dir_of ch) ch)).
    { eapply Permutation_Forall; [symmetry; apply inner_perm|]. apply Forall_map. apply Forall_forall. intros s Hs.
      rewrite Forall_forall in IH, NK. apply IH; auto. }
    destruct (Bool.eqb (dir_of ch) emb); [exact B|]. eapply Permutation_Forall; [symmetry; apply turn_perm|exact B].
Qed.

(* ---- every position once ---- *)
Lemma fst_toward d l r : map fst (toward d l r) = zrange l r.
Proof. unfold toward. rewrite map_map. cbn [fst]. apply map_id. Qed.
Lemma map_flat_map {A B C} (g : B -> C) (f : A -> list B) l : map g (flat_map f l) = flat_map (fun x => map g (f x)) l.
Proof. induction l as [|x l IH]; [reflexivity|]. cbn [flat_map]. now rewrite map_app, IH. Qed.
Lemma positions_tiles : forall ss a b, tiles a ss b -> positions ss = zrange a b.
Proof.
  induction ss as [|s t IH]; intros a b T; cbn [tiles] in T.
  - subst. now rewrite zrange_nil by lia.
  - destruct T as (T1 & T2 & T3). cbn [positions flat_map]. fold (positions t). rewrite (IH _ _ T3). apply tiles_le in T3. subst a. symmetry. apply zrange_app; lia.
Qed.
Lemma kids_le ks : forall a b, kids_at a ks b -> a <= b.
Proof.
  induction ks as [|ch t IH]; intros a b K; cbn in K; [exact K|]. destruct K as (x & y & (f & mid & e & ch' & -> & _ & _ & _ & _ & T & <- & <-) & K1 & K2).
  apply IH in K2. apply tiles_le in T. lia.
Qed.
Lemma perm_flat_map_ext {A B} (f g : A -> list B) l : Forall (fun x => Permutation (f x) (g x)) l -> Permutation (flat_map f l) (flat_map g l).
Proof. induction 1; cbn [flat_map]; auto. now apply Permutation_app. Qed.
Lemma view_positions s : node s -> forall emb, Permutation (map fst (view emb s)) (zrange (sl s) (sr s)).
Proof.
  induction s as [c l r d ks IH] using scrap_ind2. intros N emb. inversion N as [s0 P K NK E0]; subst s0. cbn [sl sr kids] in *.
  rewrite view_eq. generalize (dirFromClass (mks c l r d []) emb) as cd. intros cd. clear N P. revert l K.
  induction ks as [|ch t IHk]; intros l K.
  - cbn [kid_views]. now rewrite fst_toward.
  - inversion IH as [|? ? IH1 IH2]; subst. inversion NK as [|? ? NK1 NK2]; subst. specialize (IHk IH2 NK2).
    cbn [kids_at] in K. destruct K as (x & y & (f & mid & e & ch' & -> & I & PE & M & PM & T & <- & <-) & K1 & K2).
    cbn [kid_views app]. replace (last (f :: mid ++ [e]) f) with e by (symmetry; exact (last_last (f :: mid) e f)).
    rewrite !map_app, fst_toward, (IHk _ K2).
    pose proof (tiles_le _ _ _ T) as TL. pose proof (kids_le _ _ _ K2) as KL.
    rewrite (zrange_app l (sl f) r) by lia. apply Permutation_app_head. rewrite (zrange_app (sl f) (sr e) r) by lia. apply Permutation_app_tail.
    rewrite map_flat_map. rewrite (perm_flat_map_ext _ (fun s => zrange (sl s) (sr s))).
    + fold (positions (f :: mid ++ [e])). rewrite (positions_perm _ _ PM). now rewrite (positions_tiles _ _ _ T).
    + apply Forall_forall. intros s Hs. rewrite Forall_forall in IH1, NK1. apply IH1; auto.
Qed.

(* ---- Reorder ---- *)
Lemma Reorder_nested rl : let vis := arranged (lv_emb rl) (lv_scraps rl) in let o := outer_dir vis (lv_emb rl) in
  Forall node (lv_scraps rl) -> all_fit o vis L2R = true ->
  exists runs, Reorder rl = Some runs /\ Forall run_ok runs /\ alternating None runs /\ flat_map run_view runs = flat_map (view o) vis.
Proof.
  intros vis o N F. destruct (lv_scraps rl) as [|s t] eqn:E.
  - exists []. unfold Reorder. rewrite E. cbn. auto.
  - assert (NE : Reorder rl = do vs <- reorder (lv_emb rl) (lv_scraps rl); flatten vs (lv_emb rl)) by (unfold Reorder; rewrite E; reflexivity).
    rewrite NE. clear NE. subst vis o. rewrite <- E in *. unfold reorder. rewrite (visit_map (arrange (lv_emb rl))).
    + cbn [obind]. rewrite (proj1 (order_loop_spec (lv_emb rl) _ (arranged_clz (lv_emb rl) _ N))).
      cbn [app]. apply flatten_nested; auto. apply rev_blocks_forall. apply Forall_map. eapply Forall_impl; [|exact N]. intros x Hx. now apply node_arrange.
    + eapply Forall_impl; [|exact N]. intros x Hx. now apply node_clz.
    + eapply Forall_impl; [|exact N]. intros x Hx. now apply reorder_arrange.
Qed.
Lemma arranged_once emb o ss : Forall node ss -> Permutation (map fst (flat_map (view o) (arranged emb ss))) (positions ss).
Proof.
  intros N. assert (N' : Forall node (arranged emb ss)).
  { apply rev_blocks_forall. apply Forall_map. eapply Forall_impl; [|exact N]. intros x Hx. now apply node_arrange. }
  rewrite map_flat_map, (perm_flat_map_ext _ (fun s => zrange (sl s) (sr s))).
  - fold (positions (arranged emb ss)). unfold arranged. rewrite (positions_perm _ _ (rev_blocks_perm (opp emb) (map (arrange emb) ss) [])). cbn [app].
    unfold positions. rewrite flat_map_concat_map, map_map, <- flat_map_concat_map. erewrite flat_map_ext; [reflexivity|]. intros s. cbn. now rewrite arrange_sl, arrange_sr.
  - eapply Forall_impl; [|exact N']. intros x Hx. now apply view_positions.
Qed.
Lemma positions_len ss : Forall node ss -> Z.of_nat (length (positions ss)) = fold_right Z.add 0 (map slen ss).
Proof.
  intros N. induction N as [|s t Ns _ IH]; [reflexivity|]. cbn [positions flat_map map fold_right]. fold (positions t). rewrite app_length, Nat2Z.inj_add, IH.
  destruct Ns as [s P _ _]. rewrite (slen_proper s P). destruct P as (A & B & _). f_equal. exact (zrange_len (sl s) (sr s) B).
Qed.
Lemma nested_once rl runs : let vis := arranged (lv_emb rl) (lv_scraps rl) in
  Forall node (lv_scraps rl) -> all_fit (outer_dir vis (lv_emb rl)) vis L2R = true -> Reorder rl = Some runs ->
  Permutation (flat_map (fun r => positions (r_scraps r)) runs) (positions (lv_scraps rl)) /\
  fold_right Z.add 0 (map r_len runs) = fold_right Z.add 0 (map slen (lv_scraps rl)).
Proof.
  intros vis N F E. destruct (Reorder_nested rl N F) as (r' & E' & R & _ & V). rewrite E in E'. injection E' as <-.
  assert (X : flat_map (fun r => positions (r_scraps r)) runs = map fst (flat_map run_view runs)).
  { rewrite map_flat_map. apply flat_map_ext. intros r. unfold run_view. rewrite map_map. cbn [fst]. now rewrite map_id. }
  assert (Y : Permutation (map fst (flat_map run_view runs)) (positions (lv_scraps rl))) by (rewrite V; now apply arranged_once).
  split; [now rewrite X|]. rewrite runs_len by auto. unfold zlen. rewrite <- (map_length fst). rewrite (Permutation_length Y).
  now apply positions_len.
Qed.
