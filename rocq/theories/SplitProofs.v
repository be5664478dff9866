(* SplitProofs.v -- splitting resolved levels into lines. *)
From Coq Require Import List ZArith Lia Bool Permutation.
From Verif Require Import Base Scrap Reorder ReorderSpec ReorderProofs.
Import ListNotations.
Open Scope Z_scope.

(* ---- a list of scraps in which every position from p to hi will be found, however it is cut ---- *)
Fixpoint chain (p : Z) (ss : list scrap) (hi : Z) : Prop :=
  match ss with
  | [] => hi <= p
  | s :: t => exists q, chain q t hi /\ (q <= p \/ (sl s <= p /\ q <= sr s))
  end.

Lemma chain_mono ss : forall p p' hi, p <= p' -> chain p ss hi -> chain p' ss hi.
Proof.
  induction ss as [|s t IH]; intros p p' hi L C; simpl in *; [lia|].
  destruct C as (q & C & D). destruct D as [D|D].
  - exists q. split; auto. lia.
  - exists q. split; auto. lia.
Qed.

Lemma chain_end ss : forall p hi, hi <= p -> chain p ss hi.
Proof. induction ss as [|s t IH]; intros p hi L; simpl; auto. exists p. split; auto. lia. Qed.

Lemma chain_drop done : forall at_ t hi,
  chain at_ (done ++ t) hi -> Forall (fun s => scontains s at_ = false) done -> chain at_ t hi.
Proof.
  induction done as [|x done IH]; intros at_ t hi C F; simpl in *; auto.
  inversion F as [|? ? X F']; subst. destruct C as (q & C & D). apply IH; auto.
  unfold scontains in X. destruct (Z.leb_spec q at_) as [Q|Q].
  - eapply chain_mono; eauto.
  - exfalso. destruct D as [D|[D1 D2]]; [lia|].
    replace (sl x <=? at_) with true in X by (symmetry; apply Z.leb_le; lia).
    replace (at_ <? sr x) with true in X by (symmetry; apply Z.ltb_lt; lia). discriminate.
Qed.

Lemma chain_found ss : forall pos hi, chain pos ss hi -> pos < hi -> Exists (fun s => scontains s pos = true) ss.
Proof.
  induction ss as [|s t IH]; intros pos hi C L; simpl in C; [lia|].
  destruct (scontains s pos) eqn:E; [constructor; auto|]. apply Exists_cons_tl.
  apply (IH pos hi); auto. apply (chain_drop [s] pos t hi); [exact C|]. constructor; auto.
Qed.

Lemma tiles_chain ss : forall lo hi, tiles lo ss hi -> chain lo ss hi.
Proof.
  induction ss as [|s t IH]; intros lo hi T; simpl in *; [lia|].
  destruct T as (T1 & T2 & T3). exists (sr s). split; auto. right. lia.
Qed.

Definition first_l (ss : list scrap) : Z := match ss with s :: _ => sl s | [] => 0 end.
Definition last_r (ss : list scrap) : Z := match ss with s :: _ => sr (last ss s) | [] => 0 end.

Lemma irsContains_spec ss pos : ss <> [] ->
  irsContains ss pos = Some ((first_l ss <=? pos) && (pos <? last_r ss)).
Proof.
  intros N. destruct ss as [|s t]; [congruence|]. unfold irsContains.
  change (zget (s :: t) 0) with (Some s). cbn [obind first_l].
  destruct (exists_last N) as (pre & x & E). rewrite E, zget_last_app. cbn [obind].
  unfold last_r. destruct (pre ++ [x]) eqn:Q; [destruct pre; discriminate|]. rewrite <- Q, last_last. reflexivity.
Qed.

(* Children lists that can be cut at any position from p on, to depth n. *)
Fixpoint kgood (n : nat) (p : Z) (ch : list scrap) : Prop :=
  match n with
  | O => False
  | S n => ch <> [] /\ chain (Z.max p (first_l ch)) ch (last_r ch) /\
           Forall (fun s => Forall (kgood n p) (kids s)) ch
  end.

Lemma kgood_mono n : forall p p' ch, p <= p' -> kgood n p ch -> kgood n p' ch.
Proof.
  induction n as [|n IH]; intros p p' ch L K; simpl in *; [tauto|].
  destruct K as (A & B & C). split; auto. split.
  - eapply chain_mono; [|exact B]. lia.
  - eapply Forall_impl; [|exact C]. intros s F. eapply Forall_impl; [|exact F]. eauto.
Qed.

(* The loop of split, as a function of its own. *)
Definition split_loop (n : nat) (first : scrap) (at_ : Z) : list scrap -> list scrap -> option (list scrap * list scrap) :=
  fix loop (done todo : list scrap) : option (list scrap * list scrap) :=
           match todo with
           | [] => None
           | s :: t =>
               if negb (scontains s at_) then loop (done ++ [s]) t
               else do (ks, restch) <- split_kids (split n) at_ [] (kids s);
                    let s' := mks (clz s) (sl s) at_ (sctx s) ks in
                    let rest := mks (clz s) at_ (sr s) dc0 restch in
                    Some (done ++ [s'], (if isisolate first then [first] else []) ++ rest :: t)
           end.

Lemma split_S n ss at_ : split (S n) ss at_ =
  (do b <- irsContains ss at_;
   if negb b then Some (ss, [])
   else do first <- zget ss 0; split_loop n first at_ [] ss).
Proof. reflexivity. Qed.

(* The first scrap containing the position. *)
Lemma find_cut ss at_ : Exists (fun s => scontains s at_ = true) ss ->
  exists pre s post, ss = pre ++ s :: post /\ Forall (fun x => scontains x at_ = false) pre /\ scontains s at_ = true.
Proof.
  induction ss as [|x t IH]; intros E; [inversion E|].
  destruct (scontains x at_) eqn:X.
  - exists [], x, t. auto.
  - inversion E as [? ? X'|? ? E']; subst; [congruence|]. destruct (IH E') as (pre & s & post & -> & F & C).
    exists (x :: pre), s, post. auto.
Qed.

Lemma split_loop_found n first at_ pre s post : forall done,
  Forall (fun x => scontains x at_ = false) pre -> scontains s at_ = true ->
  split_loop n first at_ done (pre ++ s :: post) =
  (do (ks, restch) <- split_kids (split n) at_ [] (kids s);
   Some (done ++ pre ++ [mks (clz s) (sl s) at_ (sctx s) ks],
         (if isisolate first then [first] else []) ++ mks (clz s) at_ (sr s) dc0 restch :: post)).
Proof.
  induction pre as [|x pre IH]; intros done F C.
  - cbn [app split_loop]. rewrite C. reflexivity.
  - inversion F as [|? ? X F']; subst. cbn [app split_loop]. rewrite X. cbn [negb].
    fold (split_loop n first at_). rewrite IH by auto.
    destruct (split_kids _ _ _ _) as [[ks rc]|]; cbn [obind]; auto. rewrite <- !app_assoc. reflexivity.
Qed.

Lemma last_r_app pre ss : ss <> [] -> last_r (pre ++ ss) = last_r ss.
Proof.
  intros N. destruct (exists_last N) as (a & x & ->). unfold last_r.
  rewrite app_assoc. destruct ((pre ++ a) ++ [x]) eqn:Q; [destruct (pre ++ a); discriminate|].
  rewrite <- Q, last_last. destruct (a ++ [x]) eqn:Q2; [destruct a; discriminate|]. rewrite <- Q2, last_last. reflexivity.
Qed.

Lemma last_r_rest s rest post : sr rest = sr s -> last_r (rest :: post) = last_r (s :: post).
Proof.
  intros E. destruct post as [|y post]; [exact E|].
  change (rest :: y :: post) with ([rest] ++ (y :: post)).
  change (s :: y :: post) with ([s] ++ (y :: post)). rewrite !last_r_app by discriminate. reflexivity.
Qed.

Lemma split_kids_ok n at_ (IH : forall ch, kgood n at_ ch ->
    exists a b, split n ch at_ = Some (a, b) /\ kgood n at_ a /\
      (irsContains ch at_ = Some true -> kgood n at_ b)) :
  forall ks done, Forall (kgood n at_) done -> Forall (kgood n at_) ks ->
  exists a b, split_kids (split n) at_ done ks = Some (a, b) /\ Forall (kgood n at_) a /\ Forall (kgood n at_) b.
Proof.
  induction ks as [|ch t IHk]; intros done D K.
  - exists done, []. auto.
  - inversion K as [|? ? K1 K2]; subst. cbn [split_kids].
    assert (N : ch <> []) by (destruct n; simpl in K1; tauto).
    rewrite (irsContains_spec ch at_ N). cbn [obind].
    destruct ((first_l ch <=? at_) && (at_ <? last_r ch)) eqn:B.
    + destruct (IH ch K1) as (a & b & S1 & S2 & S3). rewrite S1. cbn [obind].
      exists (done ++ [a]), (b :: t). split; auto. split.
      * apply Forall_app. auto.
      * constructor; auto. apply S3. rewrite irsContains_spec by auto. now rewrite B.
    + fold (split_kids (split n) at_). apply IHk; auto. apply Forall_app. auto.
Qed.

Lemma split_ok n : forall at_ ch, kgood n at_ ch ->
  exists a b, split n ch at_ = Some (a, b) /\ kgood n at_ a /\
    (irsContains ch at_ = Some true -> kgood n at_ b).
Proof.
  induction n as [|n IH]; intros at_ ch K; [destruct K|].
  pose proof K as (N & C & F). rewrite split_S. rewrite irsContains_spec by auto. cbn [obind].
  destruct ((first_l ch <=? at_) && (at_ <? last_r ch)) eqn:B.
  2:{ cbn [negb]. exists ch, []. split; auto. split; auto. discriminate. }
  cbn [negb]. apply andb_true_iff in B. destruct B as [B1 B2]. apply Z.leb_le in B1. apply Z.ltb_lt in B2.
  replace (Z.max at_ (first_l ch)) with at_ in C by lia.
  destruct (find_cut ch at_ (chain_found ch at_ _ C B2)) as (pre & s & post & E & FP & CS).
  assert (Z0 : exists first, zget ch 0 = Some first /\ In first ch /\ sl first = first_l ch).
  { destruct ch as [|f t]; [congruence|]. exists f. split; [reflexivity|]. split; [left; auto|reflexivity]. }
  destruct Z0 as (first & Z0 & IF & FL). rewrite Z0. cbn [obind].
  rewrite E, split_loop_found by auto.
  rewrite E in F. apply Forall_app in F. destruct F as [F1 F2]. inversion F2 as [|? ? FS F3]; subst x l.
  destruct (split_kids_ok n at_ (fun c => IH at_ c) (kids s) [] (Forall_nil _) FS) as (ka & kb & SK & KA & KB).
  rewrite SK. cbn [obind app].
  set (s' := mks (clz s) (sl s) at_ (sctx s) ka). set (rest := mks (clz s) at_ (sr s) dc0 kb).
  exists (pre ++ [s']), ((if isisolate first then [first] else []) ++ rest :: post).
  assert (CR : chain at_ (rest :: post) (last_r ch)).
  { assert (C2 : chain at_ (s :: post) (last_r ch)).
    { apply (chain_drop pre); auto. rewrite <- E. exact C. }
    simpl in C2. destruct C2 as (q & C2 & D). simpl. exists q. split; auto. unfold rest. simpl. lia. }
  assert (LR : last_r ch = last_r (rest :: post)).
  { rewrite E, last_r_app by discriminate. symmetry. apply last_r_rest. reflexivity. }
  split; [reflexivity|]. split.
  - simpl. split; [destruct pre; discriminate|]. split.
    + apply chain_end. rewrite last_r_app by discriminate. cbn. lia.
    + apply Forall_app. split; auto.
  - intros _. assert (FF : Forall (kgood n at_) (kids first)).
    { destruct K as (_ & _ & KF). rewrite Forall_forall in KF. apply KF. auto. }
    destruct (isisolate first).
    + split; [discriminate|]. split.
      * rewrite last_r_app by discriminate. cbn [app first_l]. rewrite <- LR.
        eapply chain_mono; [apply Z.le_max_l|]. exists at_. split; [exact CR|]. left. lia.
      * constructor; auto.
    + cbn [app]. split; [discriminate|]. split.
      * cbn [first_l]. unfold rest at 1. cbn [sl]. rewrite Z.max_id. rewrite <- LR. exact CR.
      * constructor; auto.
Qed.

(* ---- the top level ---- *)
Definition kids_good (n : nat) (p : Z) (ss : list scrap) : Prop :=
  Forall (fun s => Forall (kgood n p) (kids s)) ss.

Lemma tree_kgood n : forall p ch, tree_ok n ch -> kgood n p ch.
Proof.
  induction n as [|n IH]; intros p ch T; [destruct T|]. destruct T as (N & (lo & hi & T) & F).
  assert (LR : forall ss lo hi, ss <> [] -> tiles lo ss hi -> last_r ss = hi /\ first_l ss = lo).
  { clear. induction ss as [|s t IHs]; intros lo hi N T; [congruence|]. simpl in T. destruct T as (T1 & T2 & T3).
    split; auto. destruct t as [|x t]; [exact T3|].
    change (s :: x :: t) with ([s] ++ x :: t). rewrite last_r_app by discriminate.
    apply (IHs (sr s) hi); [discriminate|exact T3]. }
  destruct (LR ch lo hi N T) as [LC FL].
  split; auto. split.
  - destruct (LR ch lo hi N T) as [E _]. rewrite E. eapply chain_mono; [|apply tiles_chain; exact T]. lia.
  - eapply Forall_impl; [|exact F]. intros s K. eapply Forall_impl; [|exact K]. auto.
Qed.

Lemma tiles_app a b : forall lo hi, tiles lo (a ++ b) hi <-> exists m, tiles lo a m /\ tiles m b hi.
Proof.
  induction a as [|s t IH]; intros lo hi; simpl.
  - split; [intros H; exists lo; auto|intros (m & -> & H); auto].
  - split.
    + intros (A & B & C). apply IH in C. destruct C as (m & C & D). exists m. auto.
    + intros (m & (A & B & C) & D). split; auto. split; auto. apply IH. exists m. auto.
Qed.

Lemma tiles_le ss : forall lo hi, tiles lo ss hi -> lo <= hi.
Proof. induction ss as [|s t IH]; intros lo hi T; simpl in T; [lia|]. destruct T as (A & B & C). apply IH in C. lia. Qed.

Lemma line_split n lo ss hi at_ : line lo ss hi -> kids_good n at_ ss -> lo <= at_ < hi ->
  exists a b, split (S n) ss at_ = Some (a, b) /\ line lo a at_ /\ line at_ b hi /\
    kids_good n at_ a /\ kids_good n at_ b.
Proof.
  intros (pre & body & E & T & IS & PC) K A.
  assert (NB : body <> []) by (intros ->; simpl in T; lia).
  assert (NS : ss <> []) by (rewrite E; destruct pre, body; try discriminate; congruence).
  assert (LR : last_r ss = hi).
  { rewrite E, last_r_app by auto. clear -T NB. revert lo T. induction body as [|s t IH]; intros lo T; [congruence|].
    simpl in T. destruct T as (_ & _ & T). destruct t as [|x t]; [exact T|].
    change (s :: x :: t) with ([s] ++ x :: t). rewrite last_r_app by discriminate. eapply IH; [discriminate|exact T]. }
  assert (FL : first_l ss <= lo).
  { rewrite E. destruct PC as [[-> _]|(i & -> & _ & _ & I)]; [|cbn; lia].
    destruct body as [|f t]; [congruence|]. simpl in T. cbn. lia. }
  destruct (find_cut body at_ (chain_found body at_ hi (chain_mono _ _ _ _ (proj1 A) (tiles_chain _ _ _ T)) (proj2 A)))
    as (bp & s & post & EB & FP & CS).
  assert (PF : Forall (fun x => scontains x at_ = false) (pre ++ bp)).
  { apply Forall_app. split; auto. destruct PC as [[-> _]|(i & -> & _ & I & _)]; constructor; auto.
    unfold scontains. apply andb_false_iff. destruct (Z.leb_spec (sl i) at_); [right; apply Z.ltb_ge; lia|left; auto]. }
  rewrite split_S, irsContains_spec by auto. cbn [obind].
  replace ((first_l ss <=? at_) && (at_ <? last_r ss)) with true
    by (symmetry; apply andb_true_iff; split; [apply Z.leb_le|apply Z.ltb_lt]; lia).
  cbn [negb].
  assert (Z0 : exists first, zget ss 0 = Some first /\ In first ss).
  { destruct ss as [|f t]; [congruence|]. exists f. split; [reflexivity|left; auto]. }
  destruct Z0 as (first & Z0 & IF). rewrite Z0. cbn [obind].
  assert (SS : ss = (pre ++ bp) ++ s :: post) by (rewrite E, EB, app_assoc; reflexivity).
  rewrite SS, split_loop_found by auto.
  assert (KS : Forall (kgood n at_) (kids s)).
  { unfold kids_good in K. rewrite Forall_forall in K. apply K. rewrite SS. apply in_or_app. right. left. auto. }
  destruct (split_kids_ok n at_ (split_ok n at_) (kids s) [] (Forall_nil _) KS) as (ka & kb & SK & KA & KB).
  rewrite SK. cbn [obind app].
  set (s' := mks (clz s) (sl s) at_ (sctx s) ka). set (rest := mks (clz s) at_ (sr s) dc0 kb).
  eexists. eexists. split; [reflexivity|].
  pose proof CS as CS'. unfold scontains in CS'. apply andb_true_iff in CS'. destruct CS' as [C1 C2].
  apply Z.leb_le in C1. apply Z.ltb_lt in C2.
  rewrite EB in T. apply tiles_app in T. destruct T as (m & T1 & T2). simpl in T2. destruct T2 as (T2 & T3 & T4).
  rewrite EB in IS. apply Forall_app in IS. destruct IS as [IS1 IS2]. inversion IS2 as [|? ? ISs IS3]; subst x l.
  assert (NI : isisolate s = false) by (destruct (isisolate s); auto; specialize (ISs eq_refl); lia).
  assert (NI' : isisolate s' = false) by exact NI.
  assert (NR : isisolate rest = false) by exact NI.
  split; [|split; [|split]].
  - exists pre, (bp ++ [s']). split; [rewrite app_assoc; reflexivity|]. split.
    + apply tiles_app. exists m. split; auto. cbn. lia.
    + split; [apply Forall_app; split; auto; constructor; auto; rewrite NI'; discriminate|].
      destruct PC as [[-> P]|P]; auto. left. split; auto. rewrite EB in P. destruct bp as [|x bp]; auto.
  - assert (TB : tiles at_ (rest :: post) hi) by (cbn; repeat split; auto; lia).
    assert (IB : Forall (fun s => isisolate s = true -> sl s = sr s) (rest :: post))
      by (constructor; auto; rewrite NR; discriminate).
    destruct PC as [[-> P]|(i & -> & I1 & I2 & I3)].
    + assert (F0 : isisolate first = false).
      { rewrite E in Z0. cbn [app] in Z0. destruct body as [|f t]; [congruence|].
        change (zget (f :: t) 0) with (Some f) in Z0. injection Z0 as <-. exact P. }
      rewrite F0. cbn [app]. exists [], (rest :: post). auto 6.
    + rewrite E in Z0. change (zget ([i] ++ body) 0) with (Some i) in Z0. injection Z0 as <-.
      rewrite I1. exists [i], (rest :: post). split; [reflexivity|]. split; auto. split; auto.
      right. exists i. repeat split; auto; lia.
  - unfold kids_good in *. rewrite SS in K. apply Forall_app in K. destruct K as [K1 K2].
    apply Forall_app. split; auto.
  - unfold kids_good in *. assert (KF : Forall (kgood n at_) (kids first)).
    { rewrite Forall_forall in K. apply K. auto. }
    rewrite SS in K. apply Forall_app in K. destruct K as [K1 K2].
    inversion K2; subst. apply Forall_app. split; [destruct (isisolate first); auto|]. constructor; auto.
Qed.

Lemma kids_good_mono n p p' ss : p <= p' -> kids_good n p ss -> kids_good n p' ss.
Proof.
  intros L K. eapply Forall_impl; [|exact K]. intros s F. eapply Forall_impl; [|exact F].
  intros ch. apply kgood_mono. auto.
Qed.

(* Cutting a paragraph into any number of lines. *)
Lemma cut_lines_ok n ats : forall lo ss hi, line lo ss hi -> kids_good n lo ss -> cuts_in lo ats hi ->
  exists ls, cut_lines (split (S n)) ss ats = Some ls /\ lines_cover lo ats hi ls.
Proof.
  induction ats as [|a r IH]; intros lo ss hi L K C.
  - exists [ss]. split; [reflexivity|exact L].
  - destruct C as [C1 C2].
    destruct (line_split n lo ss hi a L (kids_good_mono n lo a ss (proj1 C1) K) C1) as (x & y & S1 & S2 & S3 & S4 & S5).
    destruct (IH a y hi S3 S5 C2) as (ls & D1 & D2).
    exists (x :: ls). cbn [cut_lines]. rewrite S1. cbn [obind]. rewrite D1. cbn [obind]. split; auto. split; auto.
Qed.

Lemma cut_paragraph n ats lo ss hi : line lo ss hi -> Forall (fun s => Forall (tree_ok n) (kids s)) ss -> cuts_in lo ats hi ->
  exists ls, cut_lines (split (S n)) ss ats = Some ls /\ lines_cover lo ats hi ls.
Proof.
  intros L T C. apply cut_lines_ok; auto. eapply Forall_impl; [|exact T]. intros s F.
  eapply Forall_impl; [|exact F]. intros ch. apply tree_kgood.
Qed.

(* ---- shifting ---- *)
Lemma shift_line at_ ss hi : 0 <= at_ -> line at_ ss hi -> line 0 (shiftzero ss at_) (hi - at_).
Proof.
  intros A (pre & body & -> & T & IS & PC).
  assert (V : forall p, at_ <= p -> validcharpos p at_ = p - at_).
  { intros p L. unfold validcharpos. destruct (Z.ltb_spec at_ p); lia. }
  assert (TB : forall b lo, at_ <= lo -> tiles lo b hi -> tiles (lo - at_) (shiftzero b at_) (hi - at_)).
  { clear -V. induction b as [|s t IH]; intros lo L T; cbn in *; [lia|].
    destruct T as (T1 & T2 & T3). rewrite !V by lia. split; [lia|]. split; [lia|]. apply IH; auto. lia. }
  exists (shiftzero pre at_), (shiftzero body at_). split; [apply map_app|]. split; [|split].
  - replace 0 with (at_ - at_) by lia. apply TB; auto. lia.
  - unfold shiftzero. apply Forall_map. eapply Forall_impl; [|exact IS]. intros s H I.
    change (isisolate _) with (isisolate s) in I. cbn. rewrite H; auto.
  - destruct PC as [[-> P]|(i & -> & I1 & I2 & I3)].
    + left. split; auto. destruct body; auto.
    + right. eexists. split; [reflexivity|]. split; [exact I1|]. cbn. split; [now rewrite I2|].
      unfold validcharpos. destruct (Z.ltb_spec at_ (sl i)); lia.
Qed.

Lemma flat_good n p ss : flat ss -> kids_good n p ss.
Proof. intros F. eapply Forall_impl; [|exact F]. intros s ->. constructor. Qed.

Lemma split_flat n ss at_ a b : flat ss -> split n ss at_ = Some (a, b) -> flat a /\ flat b.
Proof.
  destruct n as [|n]; [discriminate|]. intros F. rewrite split_S.
  destruct (irsContains ss at_) as [[]|]; cbn [obind negb]; try discriminate.
  2:{ intros H. injection H as <- <-. split; auto. constructor. }
  destruct ss as [|f t] eqn:E; [discriminate|]. change (zget (f :: t) 0) with (Some f). cbn [obind].
  rewrite <- E in *. assert (KF : kids f = []) by (rewrite E in F; inversion F; auto). clear E.
  enough (G : forall todo done, flat todo -> flat done -> split_loop n f at_ done todo = Some (a, b) -> flat a /\ flat b).
  { intros H. apply (G ss []); auto. constructor. }
  induction todo as [|s todo IH]; intros done F1 F2 H; [discriminate|].
  inversion F1 as [|? ? KS F1']; subst. cbn [split_loop] in H. destruct (negb (scontains s at_)).
  - apply (IH (done ++ [s])); auto. apply Forall_app. split; auto.
  - rewrite KS in H. cbn in H. injection H as <- <-. split.
    + apply Forall_app. split; auto.
    + apply Forall_app. split; [destruct (isisolate f); auto; constructor|constructor]; auto.
Qed.

(* Split for a paragraph without nested isolates, with or without shifting. *)
Lemma Split_flat rl lo hi at_ sh : line lo (lv_scraps rl) hi -> flat (lv_scraps rl) ->
  0 <= lo -> lo <= at_ < hi -> hi < 2 ^ 32 ->
  exists a b, Split 1 rl at_ sh = Some (a, b) /\ flat (lv_scraps a) /\ flat (lv_scraps b) /\
    line lo (lv_scraps a) at_ /\
    if sh then line 0 (lv_scraps b) (hi - at_) else line at_ (lv_scraps b) hi.
Proof.
  intros L F P A H.
  assert (U : u32 at_ = at_) by (unfold u32; apply Z.mod_small; lia).
  destruct (line_split 0 lo (lv_scraps rl) hi at_ L (flat_good _ _ _ F) A) as (x & y & S1 & S2 & S3 & _ & _).
  destruct (split_flat _ _ _ _ _ F S1) as [FX FY].
  unfold Split. rewrite U, S1. cbn [obind]. eexists. eexists. split; [reflexivity|].
  cbn [lv_scraps]. split; auto. destruct sh.
  - split; [|split; auto].
    + unfold flat, shiftzero. apply Forall_map. eapply Forall_impl; [|exact FY]. intros s K. exact K.
    + apply shift_line; auto. lia.
  - auto.
Qed.

(* ---- where the property fails ---- *)
Lemma tiles_last ss : forall lo hi, ss <> [] -> tiles lo ss hi -> last_r ss = hi.
Proof.
  induction ss as [|s t IHs]; intros lo hi N T; [congruence|]. simpl in T. destruct T as (T1 & T2 & T3).
  destruct t as [|x t]; [exact T3|].
  change (s :: x :: t) with ([s] ++ x :: t). rewrite last_r_app by discriminate.
  apply (IHs (sr s) hi); [discriminate|exact T3].
Qed.

Lemma empty_rest n ss hi at2 : line 0 ss hi -> 0 < hi ->
  split (S n) ss hi = Some (ss, []) /\ split (S n) [] at2 = None.
Proof.
  intros (pre & body & E & T & _ & _) H. split; [|reflexivity].
  assert (NB : body <> []) by (intros ->; simpl in T; lia).
  assert (NS : ss <> []) by (rewrite E; destruct pre, body; try discriminate; congruence).
  rewrite split_S, irsContains_spec by auto.
  assert (LR : last_r ss = hi) by (rewrite E, last_r_app by auto; eapply tiles_last; eauto).
  rewrite LR, Z.ltb_irrefl, andb_false_r. reflexivity.
Qed.

Lemma split_embedding n rl at_ sh a b : Split n rl at_ sh = Some (a, b) -> lv_emb a = L2R /\ lv_emb b = L2R.
Proof.
  unfold Split. destruct (split n (lv_scraps rl) (u32 at_)) as [[p s]|]; cbn [obind]; [|discriminate].
  intros H. injection H as <- <-. split; reflexivity.
Qed.
