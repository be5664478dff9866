(* ResolvedRuns.v -- the trees that resolution delivers are those that NestedRunsSpec.v speaks about. *)
From Coq Require Import List ZArith Lia Bool Permutation.
From Verif Require Import Base Scrap Brackets Trie Rules RuleProofs Reorder ReorderSpec ReorderProofs NestedRunsSpec NestedRuns Scanner ScannerProofs Resolver ResolverProofs ResolverFlat ResolverNested ResolverText NestedText.
Import ListNotations.
Open Scope Z_scope.

Definition no_fsi (M : list (Z * Z * Z)) : Prop := Forall (fun m => fst (fst m) <> cFSI) M.
Lemma tiles_in : forall ss lo hi, tiles lo ss hi -> Forall (fun s => lo <= sl s /\ sl s <= sr s /\ sr s <= hi) ss.
Proof.
  induction ss as [|s t IH]; intros lo hi T; [constructor|]. cbn [tiles] in T. destruct T as (T1 & T2 & T3). pose proof (NestedRuns.tiles_le _ _ _ T3) as L.
  constructor; [lia|]. eapply Forall_impl; [|exact (IH _ _ T3)]. cbn. intros; lia.
Qed.
Lemma sane_class s : is_class (clz s) -> clz s <> cNULL.
Proof. unfold is_class, cMAX, cNULL. lia. Qed.

Lemma forest_node s : forest (sl s) (kids s) (sr s) -> proper s -> no_fsi (smarks s) -> node s.
Proof.
  induction s as [c l r d ks IH] using scrap_ind2. intros F P M. cbn [sl sr kids] in *. rewrite smarks_eq in M. apply Forall_app in M. destruct M as [_ M]. cbn [kids] in M.
  assert (KEY : kids_at l ks r /\ Forall (Forall node) ks).
  { assert (B : 0 <= l /\ r < 2 ^ 32) by (destruct P as (P1 & _ & P3 & _); cbn [sl sr] in *; auto). destruct B as [B1 B2]. clear P.
    induction F as [lo hi LE|lo hi i body p ks LO II KI PP KP T SA FB FK IHk]; [split; [exact LE|constructor]|].
    inversion IH as [|? ? IH1 IH2]; subst. change (flat_map marks ((i :: body ++ [p]) :: ks)) with (marks (i :: body ++ [p]) ++ flat_map marks ks) in M.
    apply Forall_app in M. destruct M as [M1 M2]. pose proof (forest_le _ _ _ FK) as LK. pose proof (NestedRuns.tiles_le _ _ _ T) as LT.
    destruct (IHk IH2 M2) as [K1 K2]; auto; [lia|]. destruct (init_iso _ II) as [I1 I2].
    assert (CI : clz i = cLRI \/ clz i = cRLI).
    { rewrite marks_cons in M1. apply Forall_app in M1. destruct M1 as [M1 _]. rewrite smarks_eq, I1 in M1. inversion M1 as [|? ? X _]; subst. cbn [fst] in X.
      unfold isisolate in I1. repeat (apply orb_true_iff in I1; destruct I1 as [I1|I1]); apply Z.eqb_eq in I1; auto; congruence. }
    pose proof (tiles_in _ _ _ T) as TI.
    assert (PR : Forall proper (i :: body ++ [p])).
    { assert (CN : Forall (fun s => clz s <> cNULL) (i :: body ++ [p])).
      { constructor; [destruct CI as [-> | ->]; discriminate|]. apply Forall_app. split; [eapply Forall_impl; [|exact SA]; intros s (X & _); now apply sane_class|]. constructor; [rewrite PP; discriminate|constructor]. }
      rewrite Forall_forall in CN, TI |- *. intros s H. specialize (TI s H). specialize (CN s H). repeat split; auto; lia. }
    split.
    - cbn [kids_at]. exists (sl i), (sr p). split; [|split; [exact LO|exact K1]]. exists i, body, p, (i :: body ++ [p]). repeat match goal with |- _ /\ _ => split end; auto.
      eapply Forall_impl; [|exact SA]. intros s (_ & X & _). exact X.
    - constructor; [|exact K2]. clear - IH1 M1 PR FB KI KP T TI PP CI. rewrite Forall_forall in *. intros s H. apply IH1; auto.
      + destruct H as [<-|H]; [rewrite KI; constructor; exact (proj1 (proj2 (TI i (or_introl eq_refl))))|]. apply in_app_iff in H. destruct H as [H|[<-|[]]]; [apply FB; exact H|].
        rewrite KP. constructor. apply (TI p). right. apply in_app_iff. right. left. reflexivity.
      + apply Forall_forall. intros m Hm. apply M1. unfold marks. apply in_flat_map. exists s. auto. }
  destruct KEY. constructor; auto.
Qed.

Lemma resolved_nodes md tot M lv : resolved_tree md tot M lv -> 0 <= tot < 2 ^ 32 -> no_fsi M -> Forall node (lv_scraps lv).
Proof.
  intros (_ & T & body & E & SA & FB & <-) B NF. rewrite E in *. destruct (initial_fields md) as (I1 & I2 & I3 & _ & _ & I6 & I7). pose proof (tiles_in _ _ _ T) as TI.
  inversion TI as [|? ? _ TB]; subst. apply Forall_app in TB. destruct TB as [TB _].
  constructor; [|apply Forall_app; split].
  - constructor.
    + repeat split; rewrite ?I2, ?I3; try lia. destruct I7 as [-> | ->]; discriminate.
    + rewrite I1. cbn. rewrite I2, I3. lia.
    + rewrite I1. constructor.
  - rewrite Forall_forall in *. intros s H. specialize (TB s H). destruct (SA s H) as (C & _). apply forest_node; auto.
    + repeat split; try lia. now apply sane_class.
    + apply Forall_forall. intros m Hm. unfold no_fsi in NF. rewrite Forall_forall in NF. apply NF. unfold marks. apply in_flat_map. exists s. auto.
  - constructor; [|constructor]. constructor; cbn [sl sr kids kids_at]; [|lia|constructor]. repeat split; cbn [sl sr clz]; try lia. discriminate.
Qed.

Lemma sum_slen ss lo hi : tiles lo ss hi -> Forall proper ss -> fold_right Z.add 0 (map slen ss) = hi - lo.
Proof.
  revert lo. induction ss as [|s t IH]; intros lo T F; cbn [tiles] in T; [cbn; lia|]. destruct T as (T1 & T2 & T3). inversion F as [|? ? F1 F2]; subst.
  cbn [map fold_right]. rewrite (IH _ T3 F2), (slen_proper s F1). lia.
Qed.
(* Runs of a resolved paragraph. *)
Theorem resolved_runs md tot M lv : resolved_tree md tot M lv -> 0 <= tot < 2 ^ 32 -> no_fsi M ->
  let vis := arranged (lv_emb lv) (lv_scraps lv) in all_fit (outer_dir vis (lv_emb lv)) vis L2R = true ->
  exists runs, Reorder lv = Some runs /\ Forall run_ok runs /\ alternating None runs /\
    Permutation (flat_map (fun r => positions (r_scraps r)) runs) (zrange 0 tot) /\ fold_right Z.add 0 (map r_len runs) = tot.
Proof.
  intros R B NF vis F. pose proof (resolved_nodes _ _ _ _ R B NF) as N. destruct (Reorder_nested lv N F) as (runs & E & OK & AL & _).
  destruct (nested_once lv runs N F E) as [P L]. exists runs. repeat match goal with |- _ /\ _ => split end; auto.
  - destruct R as (_ & T & _). rewrite (positions_tiles _ _ _ T) in P. exact P.
  - rewrite L. destruct R as (_ & T & _). rewrite (sum_slen _ 0 tot T); [lia|]. eapply Forall_impl; [|exact N]. intros s [? X _ _]. exact X.
Qed.
