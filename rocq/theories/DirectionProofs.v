(* DirectionProofs.v -- the direction at a byte position (DirectionAt of Reorder.v). *)
From Coq Require Import List ZArith Lia Bool Permutation.
From Verif Require Import Base Scrap Reorder ReorderSpec ReorderProofs SplitProofs Uax9Resolve.
Import ListNotations.
Open Scope Z_scope.

(* The classes with a direction of their own. *)
Definition decided (c : Z) : bool := existsb (Z.eqb c) [cL; cLRI; cR; cRLI; cEN; cAN].

Lemma dir_decided s e : decided (clz s) = true -> dirFromClass s e = dirFromClass s L2R.
Proof.
  unfold decided, dirFromClass. cbn [existsb]. intros H. destruct (clz s =? cL), (clz s =? cLRI), (clz s =? cR), (clz s =? cRLI), (clz s =? cEN), (clz s =? cAN); try reflexivity; discriminate H.
Qed.
Lemma dir_undecided s e : decided (clz s) = false -> dirFromClass s e = e.
Proof.
  unfold decided, dirFromClass. cbn [existsb]. intros H. destruct (clz s =? cL), (clz s =? cLRI), (clz s =? cR), (clz s =? cRLI), (clz s =? cEN), (clz s =? cAN); try reflexivity; discriminate H.
Qed.

Lemma direction_cons s t p : DirectionAt (s :: t) p = if (sl s <=? p) && (p <? sr s) then dirFromClass s L2R else DirectionAt t p.
Proof. unfold DirectionAt. cbn [find]. destruct ((sl s <=? p) && (p <? sr s)); reflexivity. Qed.

Lemma tiles_mono : forall ss lo hi, tiles lo ss hi -> lo <= hi.
Proof. induction ss as [|s t IH]; intros lo hi T; cbn [tiles] in T; [lia|]. destruct T as (_ & T & T'). apply IH in T'. lia. Qed.

Lemma direction_out : forall ss lo hi p, tiles lo ss hi -> p < lo \/ hi <= p -> DirectionAt ss p = L2R.
Proof.
  induction ss as [|s t IH]; intros lo hi p T O; [reflexivity|]. cbn [tiles] in T. destruct T as (T1 & T2 & T3). pose proof (tiles_mono _ _ _ T3) as LE.
  rewrite direction_cons. replace ((sl s <=? p) && (p <? sr s)) with false by (symmetry; apply andb_false_iff; lia). apply (IH _ _ _ T3). lia.
Qed.

Lemma direction_in : forall ss lo hi s p, tiles lo ss hi -> In s ss -> sl s <= p < sr s -> DirectionAt ss p = dirFromClass s L2R.
Proof.
  induction ss as [|x t IH]; intros lo hi s p T I P; [destruct I|]. cbn [tiles] in T. destruct T as (T1 & T2 & T3). rewrite direction_cons. destruct I as [->|I].
  - replace ((sl s <=? p) && (p <? sr s)) with true by (symmetry; apply andb_true_iff; lia). reflexivity.
  - assert (X : sr x <= sl s).
    { clear -T3 I. revert T3 I. generalize (sr x) as k. induction t as [|y t IH]; intros k T I; [destruct I|]. cbn [tiles] in T. destruct T as (A & B & C).
      destruct I as [->|I]; [lia|]. specialize (IH _ C I). lia. }
    replace ((sl x <=? p) && (p <? sr x)) with false by (symmetry; apply andb_false_iff; lia). eapply IH; eauto.
Qed.

Lemma in_zrange p a b : In p (zrange a b) <-> a <= p < b.
Proof.
  unfold zrange. rewrite in_map_iff. split.
  - intros (i & <- & I). apply in_seq in I. lia.
  - intros H. exists (Z.to_nat (p - a)). split; [lia|]. apply in_seq. lia.
Qed.

(* Position by position. *)
Lemma direction_listed : forall ss lo hi, tiles lo ss hi ->
  map (fun p => (p, DirectionAt ss p)) (zrange lo hi) = attributed (fun s => dirFromClass s L2R) ss.
Proof.
  induction ss as [|s t IH]; intros lo hi T; cbn [tiles] in T.
  - subst. rewrite zrange_nil by lia. reflexivity.
  - destruct T as (T1 & T2 & T3). pose proof (tiles_mono _ _ _ T3) as LE. rewrite (zrange_app lo (sr s) hi) by lia. rewrite map_app.
    cbn [attributed flat_map]. f_equal.
    + rewrite T1. apply map_ext_in. intros p I. apply in_zrange in I. rewrite direction_cons.
      replace ((sl s <=? p) && (p <? sr s)) with true by (symmetry; apply andb_true_iff; lia). reflexivity.
    + unfold attributed in IH. rewrite <- (IH _ _ T3). apply map_ext_in. intros p I. apply in_zrange in I. rewrite direction_cons.
      replace ((sl s <=? p) && (p <? sr s)) with false by (symmetry; apply andb_false_iff; lia). reflexivity.
Qed.

Lemma in_attributed {B} (f : scrap -> B) ss p d : In (p, d) (attributed f ss) <-> exists s, In s ss /\ sl s <= p < sr s /\ d = f s.
Proof.
  unfold attributed. rewrite in_flat_map. split.
  - intros (s & I & M). apply in_map_iff in M. destruct M as (q & E & Q). injection E as -> <-. apply in_zrange in Q. eauto.
  - intros (s & I & P & ->). exists s. split; auto. apply in_map_iff. exists p. split; auto. apply in_zrange, P.
Qed.

(* The direction at the positions of a run of a paragraph without isolates. *)
Lemma run_scrap rl runs r p : flat (lv_scraps rl) -> scraps_ok (lv_scraps rl) -> Reorder rl = Some runs ->
  let o := outer_dir (rev_blocks (opp (lv_emb rl)) [] (lv_scraps rl)) (lv_emb rl) in
  In r runs -> In p (positions (r_scraps r)) -> exists s, In s (lv_scraps rl) /\ sl s <= p < sr s /\ r_dir r = dirFromClass s o.
Proof.
  intros F P E o I Q. destruct (Reorder_flat rl F P) as (r' & E' & R & _ & V). rewrite E in E'. injection E' as <-. cbv zeta in V. fold o in V.
  assert (X : In (p, r_dir r) (flat_map run_view runs)) by (apply in_flat_map; exists r; split; auto; unfold run_view; apply in_map_iff; eauto).
  rewrite V in X. apply in_attributed in X. destruct X as (s & A & B & C). exists s. split; auto.
  eapply Permutation_in; [|exact A]. apply (rev_blocks_perm (opp (lv_emb rl)) (lv_scraps rl) []).
Qed.
Lemma scrap_run rl runs s p : flat (lv_scraps rl) -> scraps_ok (lv_scraps rl) -> Reorder rl = Some runs ->
  let o := outer_dir (rev_blocks (opp (lv_emb rl)) [] (lv_scraps rl)) (lv_emb rl) in
  In s (lv_scraps rl) -> sl s <= p < sr s -> exists r, In r runs /\ In p (positions (r_scraps r)) /\ r_dir r = dirFromClass s o.
Proof.
  intros F P E o I Q. destruct (Reorder_flat rl F P) as (r' & E' & R & _ & V). rewrite E in E'. injection E' as <-. cbv zeta in V. fold o in V.
  assert (X : In (p, dirFromClass s o) (flat_map run_view runs)).
  { rewrite V. apply in_attributed. exists s. split; auto. eapply Permutation_in; [|exact I]. symmetry. apply (rev_blocks_perm (opp (lv_emb rl)) (lv_scraps rl) []). }
  apply in_flat_map in X. destruct X as (r & A & B). unfold run_view in B. apply in_map_iff in B. destruct B as (q & B1 & B2). injection B1 as -> B1.
  exists r. auto.
Qed.

Lemma direction_runs rl lo hi runs : flat (lv_scraps rl) -> scraps_ok (lv_scraps rl) -> tiles lo (lv_scraps rl) hi -> Reorder rl = Some runs ->
  let o := outer_dir (rev_blocks (opp (lv_emb rl)) [] (lv_scraps rl)) (lv_emb rl) in
  ((forall r p, In r runs -> In p (positions (r_scraps r)) -> DirectionAt (lv_scraps rl) p = r_dir r) <->
   (o = L2R \/ Forall (fun s => sl s < sr s -> decided (clz s) = true) (lv_scraps rl))).
Proof.
  intros F P T E o. split.
  - intros H. destruct o eqn:EO; [|left; reflexivity]. right. apply Forall_forall. intros s I LT. destruct (decided (clz s)) eqn:D; [reflexivity|exfalso].
    destruct (scrap_run rl runs s (sl s) F P E I) as (r & A & B & C); [lia|]. specialize (H r (sl s) A B). fold o in C. rewrite EO in C.
    rewrite (direction_in _ lo hi s) in H; auto; [|lia]. rewrite C, !dir_undecided in H by auto. discriminate H.
  - intros H r p I Q. destruct (run_scrap rl runs r p F P E I Q) as (s & A & B & C). fold o in C. rewrite C, (direction_in _ lo hi s) by auto.
    destruct H as [->|H]; [reflexivity|]. symmetry. apply dir_decided. rewrite Forall_forall in H. apply H; auto. lia.
Qed.

Lemma map_repeat {A B} (f : A -> B) x n : map f (repeat x n) = repeat (f x) n.
Proof. induction n as [|n IH]; [reflexivity|]. cbn. rewrite IH. reflexivity. Qed.
(* Classes L and R only. *)
Lemma direction_painted : forall ss lo hi, tiles lo ss hi -> Forall (fun s => clz s = cL \/ clz s = cR \/ sl s = sr s) ss ->
  map (DirectionAt ss) (zrange lo hi) = map (fun c => c =? cR) (painted ss).
Proof.
  intros ss lo hi T F. assert (X := f_equal (map snd) (direction_listed _ _ _ T)). rewrite map_map in X. cbn [snd] in X.
  change (map (DirectionAt ss) (zrange lo hi)) with (map (fun p => DirectionAt ss p) (zrange lo hi)). rewrite X. clear X T.
  unfold attributed, painted. induction F as [|s t H _ IH]; [reflexivity|]. cbn [flat_map]. rewrite !map_app, IH. f_equal. rewrite map_map. cbn [snd].
  assert (Y : forall (b : bool) (l : list Z), map (fun _ => b) l = repeat b (length l)) by (intros b l; induction l as [|a l IHl]; [reflexivity|cbn; rewrite IHl; reflexivity]).
  rewrite Y. rewrite (map_repeat (fun c => c =? cR)). unfold zrange. rewrite map_length, seq_length.
  destruct H as [H|[H|H]]; [| |rewrite H, Z.sub_diag; reflexivity]; f_equal; unfold dirFromClass; rewrite H; reflexivity.
Qed.

(* Isolates do not matter. *)
Definition bare (s : scrap) : scrap := mks (clz s) (sl s) (sr s) (sctx s) [].
Lemma direction_bare ss p : DirectionAt (map bare ss) p = DirectionAt ss p.
Proof. induction ss as [|s t IH]; [reflexivity|]. cbn [map]. rewrite !direction_cons, IH. reflexivity. Qed.

(* ---- after Split ---- *)
Definition has (p : Z) (s : scrap) : bool := (sl s <=? p) && (p <? sr s).
Lemma direction_app a b p : Forall (fun s => has p s = false) a -> DirectionAt (a ++ b) p = DirectionAt b p.
Proof. induction 1 as [|s t H _ IH]; [reflexivity|]. cbn [app]. rewrite direction_cons. unfold has in H. rewrite H. exact IH. Qed.
Lemma direction_none a p : Forall (fun s => has p s = false) a -> DirectionAt a p = L2R.
Proof. intros H. rewrite <- (app_nil_r a). rewrite direction_app; auto. Qed.
Lemma direction_prefix a b b' p : DirectionAt b p = DirectionAt b' p -> DirectionAt (a ++ b) p = DirectionAt (a ++ b') p.
Proof. intros H. induction a as [|s t IH]; [exact H|]. cbn [app]. rewrite !direction_cons, IH. reflexivity. Qed.

Lemma tiles_around : forall a s b lo hi, tiles lo (a ++ s :: b) hi ->
  Forall (fun x => sr x <= sl s) a /\ sl s <= sr s /\ Forall (fun x => sr s <= sl x <= sr x) b /\ lo <= sl s.
Proof.
  induction a as [|x a IH]; intros s b lo hi T; cbn [app tiles] in T; destruct T as (T1 & T2 & T3).
  - split; [constructor|]. split; [lia|]. split; [|lia]. revert T3. clear. generalize (sr s) as k. induction b as [|y b IH]; intros k T; [constructor|].
    cbn [tiles] in T. destruct T as (A & B & C). constructor; [lia|]. eapply Forall_impl; [|exact (IH _ C)]. cbn. intros; lia.
  - destruct (IH _ _ _ _ T3) as (A & B & C & D). split; [constructor; [lia|exact A]|]. split; [exact B|]. split; [exact C|lia].
Qed.

Lemma line_around a s b lo hi : line lo (a ++ s :: b) hi -> sl s < sr s ->
  Forall (fun x => sr x <= sl s) a /\ Forall (fun x => sr s <= sl x <= sr x) b /\ (forall f t, a ++ s :: b = f :: t -> isisolate f = true -> sl f = sr f).
Proof.
  intros (pre & body & E & T & I & C) W. destruct C as [[-> C]|(i & -> & II & Z0 & P)]; cbn [app] in E.
  - subst body. destruct (tiles_around _ _ _ _ _ T) as (A & _ & B & _). split; [exact A|]. split; [exact B|].
    intros f t Ef If. rewrite Ef in I. inversion I; auto.
  - destruct a as [|x a]; cbn [app] in E; injection E as -> E.
    + exfalso. lia.
    + subst body. destruct (tiles_around _ _ _ _ _ T) as (A & _ & B & D). split; [constructor; [lia|exact A]|]. split; [exact B|].
      cbn [app]. intros f t Ef If. injection Ef as -> _. exact Z0.
Qed.

Lemma out_left p a k : k <= p -> Forall (fun x => sr x <= k) a -> Forall (fun s => has p s = false) a.
Proof. intros H F. eapply Forall_impl; [|exact F]. cbn beta. intros s L. unfold has. apply andb_false_iff. lia. Qed.
Lemma out_right p a k : p < k -> Forall (fun x => k <= sl x <= sr x) a -> Forall (fun s => has p s = false) a.
Proof. intros H F. eapply Forall_impl; [|exact F]. cbn beta. intros s L. unfold has. apply andb_false_iff. lia. Qed.

Lemma line_covers lo ss hi at_ : line lo ss hi -> lo <= at_ < hi -> Exists (fun s => scontains s at_ = true) ss.
Proof.
  intros (pre & body & -> & T & _) A. apply Exists_app. right. clear pre. revert lo A T. induction body as [|s t IH]; intros lo A T; cbn [tiles] in T; [lia|].
  destruct T as (T1 & T2 & T3). destruct (Z.lt_ge_cases at_ (sr s)) as [L|L].
  - left. unfold scontains. apply andb_true_iff. lia.
  - right. apply (IH (sr s)); auto. lia.
Qed.

Lemma direction_split n ss lo hi at_ a b : line lo ss hi -> lo <= at_ < hi -> split (S n) ss at_ = Some (a, b) ->
  (forall p, p < at_ -> DirectionAt a p = DirectionAt ss p) /\
  (forall p, at_ <= p -> DirectionAt b p = DirectionAt ss p) /\ Forall (fun s => sl s = sr s \/ at_ <= sl s /\ at_ <= sr s) b.
Proof.
  intros LN A SP. destruct (find_cut ss at_ (line_covers _ _ _ _ LN A)) as (pre & s & post & E & F & C). rewrite split_S in SP.
  pose proof C as C'. unfold scontains in C'. apply andb_true_iff in C'. rewrite Z.leb_le, Z.ltb_lt in C'.
  rewrite E in LN. destruct (line_around _ _ _ _ _ LN ltac:(lia)) as (PA & PB & PI). rewrite <- E in *.
  assert (NE : ss <> []) by (rewrite E; destruct pre; discriminate).
  assert (IC : irsContains ss at_ = Some true).
  { rewrite irsContains_spec by exact NE. f_equal. apply andb_true_iff.
    destruct LN as (p0 & body & Eb & T & _ & CC). split.
    - apply Z.leb_le. destruct CC as [[-> _]|(i & -> & _ & _ & B)]; cbn [app] in Eb; rewrite Eb.
      + destruct body as [|x t]; [cbn [tiles] in T; lia|]. cbn [tiles] in T. change (first_l (x :: t)) with (sl x). lia.
      + change (first_l (i :: body)) with (sl i). lia.
    - apply Z.ltb_lt. assert (NB : body <> []) by (intros ->; cbn [tiles] in T; lia).
      rewrite Eb. rewrite last_r_app by exact NB. rewrite (tiles_last _ _ _ NB T). lia. }
  rewrite IC in SP. cbn [obind negb] in SP. destruct ss as [|f t] eqn:ES; [congruence|]. change (zget (f :: t) 0) with (Some f) in SP. cbn [obind] in SP.
  rewrite <- ES in *. specialize (PI f t ES).
  rewrite E in SP. rewrite split_loop_found in SP by auto. destruct (split_kids (split n) at_ [] (kids s)) as [[ks restch]|]; cbn [obind] in SP; [|discriminate SP].
  cbn [app] in SP. injection SP as <- <-. rewrite E. split; [|split].
  - intros p P. apply direction_prefix. rewrite !direction_cons. cbn [sl sr]. destruct (Z.lt_ge_cases p (sl s)) as [L|L].
    + replace (sl s <=? p) with false by lia. cbn [andb]. symmetry. apply direction_none. apply (out_right p _ (sr s)); auto. lia.
    + replace (sl s <=? p) with true by lia. replace (p <? at_) with true by lia. replace (p <? sr s) with true by lia. reflexivity.
  - intros p P. rewrite (direction_app pre) by (apply (out_left p _ (sl s)); auto; lia).
    rewrite direction_app.
    + rewrite !direction_cons. cbn [sl sr]. replace (at_ <=? p) with true by lia. replace (sl s <=? p) with true by lia. reflexivity.
    + destruct (isisolate f); [|constructor]. constructor; [|constructor]. specialize (PI eq_refl). unfold has. apply andb_false_iff. lia.
  - apply Forall_app. split; [destruct (isisolate f); [|constructor]; constructor; [left; auto|constructor]|].
    constructor; [right; cbn [sl sr]; lia|]. eapply Forall_impl; [|exact PB]. cbn beta. intros x X. right. lia.
Qed.

Lemma direction_shift b at_ p : 0 <= p -> 0 <= at_ -> Forall (fun s => sl s = sr s \/ at_ <= sl s /\ at_ <= sr s) b ->
  DirectionAt (shiftzero b at_) p = DirectionAt b (p + at_).
Proof.
  intros P A. induction 1 as [|s t H _ IH]; [reflexivity|]. change (shiftzero (s :: t) at_) with (with_lr s (validcharpos (sl s) at_) (validcharpos (sr s) at_) :: shiftzero t at_).
  rewrite !direction_cons, IH. cbn [sl sr with_lr].
  assert (E : (validcharpos (sl s) at_ <=? p) && (p <? validcharpos (sr s) at_) = (sl s <=? p + at_) && (p + at_ <? sr s)).
  { unfold validcharpos. destruct H as [H|H].
    - rewrite H. transitivity false; [|symmetry]; apply andb_false_iff; destruct (at_ <? sr s); lia.
    - destruct (Z.ltb_spec at_ (sl s)), (Z.ltb_spec at_ (sr s)); apply eq_true_iff_eq; rewrite !andb_true_iff, !Z.leb_le, !Z.ltb_lt; lia. }
  rewrite E. reflexivity.
Qed.

(* Both lines of a paragraph, whatever isolates there are. *)
Lemma direction_Split n rl lo hi at_ sh a b : line lo (lv_scraps rl) hi -> 0 <= lo -> lo <= at_ < hi -> hi < 2 ^ 32 -> Split (S n) rl at_ sh = Some (a, b) ->
  (forall p, p < at_ -> DirectionAt (lv_scraps a) p = DirectionAt (lv_scraps rl) p) /\
  (forall p, at_ <= p -> DirectionAt (lv_scraps b) (if sh then p - at_ else p) = DirectionAt (lv_scraps rl) p).
Proof.
  intros L Z0 A B SP. unfold Split in SP. assert (U : u32 at_ = at_) by (unfold u32; apply Z.mod_small; lia). rewrite U in SP.
  destruct (split (S n) (lv_scraps rl) at_) as [[x y]|] eqn:E; cbn [obind] in SP; [|discriminate SP]. injection SP as <- <-. cbn [lv_scraps].
  destruct (direction_split n _ lo hi at_ x y L A E) as (D1 & D2 & D3). split; [exact D1|]. intros p P. destruct sh; [|apply D2, P].
  rewrite direction_shift by (auto; lia). replace (p - at_ + at_) with p by lia. apply D2, P.
Qed.
