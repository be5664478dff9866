(* TrieMove.v -- the relocation of a family in the hash trie, and the insertion of a letter. *)
From Coq Require Import List ZArith Lia Bool Sorted.
From Verif Require Import Base Trie TrieProofs TrieSteps.
Import ListNotations.
Open Scope Z_scope.

Section Move.
Context (N K : Z).
Notation inv := (inv N K). Notation node := (node N K). Notation head := (head N K). Notation cell := (cell N). Notation letter := (letter K).
Notation shape := (shape N K). Notation added := (added N K). Notation At := (At K). Notation family := (family N K).

(* what the loop does with the cells F when moving them by d *)
Record moved (F : list Z) (d : Z) (t t' : trie) : Prop := mkmoved {
  m_to : forall x, In x F -> C t' (x + d) = C t x /\ C t' x = 0 /\ L t' (x + d) = L t x /\ B t' (x + d) = u8 (B t x + u8 d) /\ (L t x <> 0 -> L t' (L t x) = x + d);
  m_stay : forall y, ~ In y F -> (forall x, In x F -> y <> x + d) -> C t' y = C t y /\ B t' y = B t y;
  m_link : forall y, (forall x, In x F -> y <> x + d) -> (forall x, In x F -> L t x <> 0 -> y <> L t x) -> L t' y = L t y }.
Record movable (F : list Z) (d : Z) (t : trie) : Prop := mkmovable {
  v_cell : forall x, In x F -> cell x /\ cell (x + d) /\ C t x <> 0 /\ C t (x + d) = 0 /\ cell (L t x);
  v_out : forall x y, In x F -> In y F -> L t x <> 0 -> L t x <> y /\ L t x <> y + d;
  v_inj : forall x y, In x F -> In y F -> L t x <> 0 -> L t x = L t y -> x = y }.

Lemma move_loop_ok h lp z : forall fuel rest t r, let d := h - lp in shape t -> zlen (t_sib t) = N -> chain (B t) r rest z -> NoDup (r :: rest) -> cell z -> ~ In z rest ->
  (z = r \/ C t z = 0) -> (forall x, In x (r :: rest) -> z <> x + d) -> movable (r :: rest) d t -> (length rest < fuel)%nat ->
  exists t', move_loop t r (u8 d) fuel = Ok t' /\ shape t' /\ t_frozen t' = t_frozen t /\ zlen (t_sib t') = N /\ moved (r :: rest) d t t'.
Proof.
  induction fuel as [|fuel IH]; intros rest t r d S SB CH ND CZ ZI ZC ZD [VC VO VI] FU; [lia|].
  pose proof (s_N _ _ t S) as HN. destruct (VC r) as (R1 & R2 & R3 & R4 & R5); [cbn; auto|]. pose proof R2 as R2'. unfold TrieProofs.cell in R2'.
  assert (RD : forall x, In x (r :: rest) -> x <> r + d) by (intros x X E; destruct (VC x X) as (_ & _ & X3 & _); congruence).
  assert (RR : r <> r + d) by (apply RD; cbn; auto).
  cbn [move_loop]. cbv zeta. unfold d. rewrite u8_delta by (fold d; lia). fold d. rewrite (sib_ok N) by auto. cbn [rbind].
  destruct (set_sib_ok N K t (r + d) (u8 (B t r + u8 d)) SB R2) as (t1 & -> & S1 & F1 & Z1 & L1 & B1 & C1). cbn [rbind]. specialize (S1 S).
  rewrite (ch_ok N K) by auto. cbn [rbind]. rewrite C1.
  destruct (set_ch_ok N K t1 (r + d) (C t r) S1 R2) as (t2 & -> & S2 & F2 & Z2 & L2 & B2 & C2). cbn [rbind]. specialize (S2 S1).
  destruct (set_ch_ok N K t2 r 0 S2 R1) as (t3 & -> & S3 & F3 & Z3 & L3 & B3 & C3). cbn [rbind]. specialize (S3 S2).
  rewrite (link_ok N K) by auto. cbn [rbind]. replace (L t3 r) with (L t r) by (rewrite L3, L2, L1; reflexivity).
  destruct (set_link_ok N K t3 (r + d) (L t r) S3 R2) as (t4 & -> & S4 & F4 & Z4 & L4 & B4 & C4). cbn [rbind]. specialize (S4 S3).
  rewrite (link_ok N K) by auto. cbn [rbind]. unfold upd in *. replace (L t4 r) with (L t r) by (rewrite L4, L3, L2, L1; now replace (r =? r + d) with false by lia).
  assert (T5 : exists t5, (if L t r =? 0 then Ok t4 else set_link t4 (L t r) (r + d)) = Ok t5 /\ shape t5 /\ t_frozen t5 = t_frozen t /\ zlen (t_sib t5) = N /\
    (forall x, C t5 x = if x =? r then 0 else if x =? r + d then C t r else C t x) /\
    (forall x, B t5 x = if x =? r + d then u8 (B t r + u8 d) else B t x) /\
    (forall x, L t5 x = if (negb (L t r =? 0)) && (x =? L t r) then r + d else if x =? r + d then L t r else L t x)).
  { destruct (Z.eqb_spec (L t r) 0) as [E0|E0].
    - exists t4. split; [reflexivity|]. split; [exact S4|]. split; [congruence|]. split; [lia|]. split; [|split]; intros x.
      + now rewrite C4, C3, C2, C1. + now rewrite B4, B3, B2, B1. + now rewrite L4, L3, L2, L1.
    - destruct (set_link_ok N K t4 (L t r) (r + d) S4 R5) as (t5 & -> & S5 & F5 & Z5 & L5 & B5 & C5). specialize (S5 S4). unfold upd in *.
      exists t5. split; [reflexivity|]. split; [exact S5|]. split; [congruence|]. split; [lia|]. split; [|split]; intros x.
      + now rewrite C5, C4, C3, C2, C1. + now rewrite B5, B4, B3, B2, B1. + cbn [negb andb]. now rewrite L5, L4, L3, L2, L1. }
  clear S1 S2 S3 S4 F1 F2 F3 F4 Z1 Z2 Z3 Z4 L1 L2 L3 L4 B1 B2 B3 B4 C1 C2 C3 C4 t1 t2 t3 t4 || idtac.
  destruct T5 as (t5 & -> & S5 & F5 & Z5 & EC & EB & EL). cbn [rbind]. rewrite (sib_ok N) by auto. cbn [rbind].
  replace (B t5 r) with (B t r) by (rewrite EB; now replace (r =? r + d) with false by lia).
  assert (LR : L t r <> 0 -> L t r <> r + d) by (intros E; apply (VO r r); cbn; auto).
  destruct rest as [|k rest]; cbn [chain] in CH.
  - rewrite CH. rewrite (ch_ok N K) by auto. cbn [rbind].
    assert (E0 : C t5 z = 0). { rewrite EC. destruct (Z.eqb_spec z r); [auto|]. destruct (Z.eqb_spec z (r + d)) as [E|]; [exfalso; apply (ZD r); cbn; auto|]. destruct ZC; congruence. }
    rewrite E0. cbn [Z.eqb]. exists t5. split; [reflexivity|]. split; [exact S5|]. split; [exact F5|]. split; [exact Z5|]. constructor.
    + intros x [<-|[]]. rewrite !EC, !EB, !EL. replace (r + d =? r) with false by lia. rewrite !Z.eqb_refl. split; [auto|]. split; [auto|]. split.
      { destruct (Z.eqb_spec (L t r) 0); [auto|]. cbn [negb andb]. specialize (LR n). now replace (r + d =? L t r) with false by lia. }
      split; [auto|]. intros NZ. now replace (L t r =? 0) with false by lia.
    + intros y Y1 Y2. cbn [In] in Y1. specialize (Y2 r (or_introl eq_refl)). rewrite EC, EB. replace (y =? r) with false by lia. now replace (y =? r + d) with false by lia.
    + intros y Y1 Y2. specialize (Y1 r (or_introl eq_refl)). specialize (Y2 r (or_introl eq_refl)). rewrite EL. replace (y =? r + d) with false by lia.
      destruct (Z.eqb_spec (L t r) 0); [auto|]. cbn [negb andb]. specialize (Y2 n). now replace (y =? L t r) with false by lia.
  - destruct CH as [E CH]. rewrite E. destruct (VC k) as (K1 & K2 & K3 & K4 & K5); [cbn; auto|]. inversion ND as [|? ? NR ND']; subst.
    assert (XR : forall x, In x (B t r :: rest) -> x <> r) by (intros x X ->; tauto).
    assert (RX : forall x, In x (B t r :: rest) -> x <> r + d) by (intros x X; apply RD; cbn [In] in *; tauto).
    assert (XD : forall x, In x (B t r :: rest) -> x + d <> r) by (intros x X EQ; destruct (VC x) as (_ & _ & _ & X4 & _); [cbn [In] in *; tauto|]; congruence).
    assert (CX : forall x, In x (B t r :: rest) -> C t5 x = C t x). { intros x X. rewrite EC. pose proof (XR x X). pose proof (RX x X). replace (x =? r) with false by lia. now replace (x =? r + d) with false by lia. }
    assert (LX : forall x, In x (B t r :: rest) -> L t5 x = L t x).
    { intros x X. rewrite EL. pose proof (RX x X). replace (x =? r + d) with false by lia. destruct (Z.eqb_spec (L t r) 0) as [|NZ]; [auto|]. cbn [negb andb].
      destruct (VO r x) as [O1 _]; [cbn; auto|cbn [In] in *; tauto|auto|]. now replace (x =? L t r) with false by lia. }
    rewrite (ch_ok N K) by auto. cbn [rbind]. rewrite (CX (B t r)) by (cbn; auto). replace (C t (B t r) =? 0) with false by lia.
    destruct (IH rest t5 (B t r)) as (t' & E' & S' & F' & Z' & [MT MS ML]); auto.
    + apply (chain_ext (B t)); [|exact CH]. intros x X. rewrite EB. assert (x <> r + d) by (apply RX; cbn [In]; intuition). now replace (x =? r + d) with false by lia.
    + intros X. apply ZI. cbn. auto.
    + right. rewrite EC. destruct (Z.eqb_spec z r); [auto|]. destruct (Z.eqb_spec z (r + d)) as [EQ|]; [exfalso; apply (ZD r); cbn; auto|]. destruct ZC; congruence.
    + intros x X. apply ZD. cbn [In] in *. tauto.
    + constructor.
      * intros x X. destruct (VC x) as (X1 & X2 & X3 & X4 & X5); [cbn [In] in *; tauto|]. rewrite CX, LX by auto. do 3 (split; [auto|]). split; [|auto].
        rewrite EC. pose proof (XD x X). pose proof (XR x X). fold d. replace (x + d =? r) with false by lia. now replace (x + d =? r + d) with false by lia.
      * intros x y X Y. rewrite LX by auto. apply VO; cbn [In] in *; tauto.
      * intros x y X Y. rewrite !LX by auto. apply VI; cbn [In] in *; tauto.
    + cbn in FU. lia.
    + exists t'. split; [exact E'|]. split; [exact S'|]. split; [congruence|]. split; [exact Z'|].
      assert (DX : forall x, In x (B t r :: rest) -> r + d <> x + d) by (intros x X; pose proof (XR x X); lia). fold d in MT, MS, ML.
      constructor.
      * intros x [<-|X].
        { destruct (MS (r + d)) as [A1 A2]; [intros X; apply (RX _ X); auto|exact DX|]. rewrite A1, A2, EC, EB, !Z.eqb_refl. replace (r + d =? r) with false by lia.
          split; [auto|]. split.
          { destruct (MS r) as [A3 _]; [tauto|intros x X EQ; apply (XD x X); auto|]. now rewrite A3, EC, Z.eqb_refl. }
          split.
          { rewrite ML; [| exact DX |].
            - rewrite EL, Z.eqb_refl. destruct (Z.eqb_spec (L t r) 0) as [|NZ]; [auto|]. cbn [negb andb]. specialize (LR NZ). now replace (r + d =? L t r) with false by lia.
            - intros x X NZ EQ. rewrite LX in * by auto. destruct (VO x r) as [_ O]; [cbn [In] in *; tauto|cbn; auto|auto|congruence]. }
          split; [auto|]. intros NZ. rewrite ML.
          - rewrite EL, Z.eqb_refl. now replace (L t r =? 0) with false by lia.
          - intros x X. destruct (VO r x) as [_ O]; [cbn; auto|cbn [In] in *; tauto|auto|auto].
          - intros x X NZ' EQ. rewrite LX in * by auto. assert (r = x) by (apply VI; cbn [In] in *; tauto). apply (XR x X). auto. }
        { destruct (MT x X) as (A1 & A2 & A3 & A4 & A5). rewrite CX, LX in * by auto. do 3 (split; [auto|]). split; [|auto].
          rewrite A4, EB. pose proof (RX x X). now replace (x =? r + d) with false by lia. }
      * intros y Y1 Y2. destruct (MS y) as [A1 A2]; [cbn [In] in *; tauto|intros x X; apply Y2; cbn [In] in *; tauto|]. rewrite A1, A2, EC, EB.
        cbn [In] in Y1. specialize (Y2 r (or_introl eq_refl)). replace (y =? r) with false by lia. now replace (y =? r + d) with false by lia.
      * intros y Y1 Y2. rewrite ML; [|intros x X; apply Y1; cbn [In] in *; tauto|intros x X; rewrite LX by auto; apply Y2; cbn [In] in *; tauto].
        specialize (Y1 r (or_introl eq_refl)). specialize (Y2 r (or_introl eq_refl)). rewrite EL. replace (y =? r + d) with false by lia.
        destruct (Z.eqb_spec (L t r) 0); [auto|]. cbn [negb andb]. specialize (Y2 n). now replace (y =? L t r) with false by lia.
Qed.

Lemma chain_map s s' d : forall ks a z, (forall x, x = a \/ In x ks -> s' (x + d) = s x + d) -> chain s a ks z -> chain s' (a + d) (map (fun x => x + d) ks) (z + d).
Proof.
  induction ks as [|k ks IH]; intros a z E; cbn [chain map].
  - intros <-. apply E. auto.
  - intros [E1 CH]. split; [rewrite E by auto; now rewrite E1|]. apply IH; auto. intros x X. apply E. cbn [In]. intuition.
Qed.
Lemma chain_next s : forall l a z x, chain s a l z -> x = a \/ In x l -> In (s x) (z :: l).
Proof.
  induction l as [|k l IH]; intros a z x CH X; cbn [chain] in CH; [destruct X as [->|[]]; cbn; auto|]. destruct CH as [E CH].
  destruct X as [->|X]; [cbn; auto|]. assert (X' : x = k \/ In x l) by (cbn in X; intuition). specialize (IH k z x CH X'). cbn [In] in *. tauto.
Qed.
Lemma desc_map d ks : desc ks -> desc (map (fun x => x + d) ks).
Proof.
  induction 1 as [|k ks D IH F]; cbn [map]; constructor; auto. rewrite Forall_forall in *. intros x X. apply in_map_iff in X. destruct X as (y & <- & Y). specialize (F y Y). lia.
Qed.

(* a family with its parent outside, and a free home for it *)
Record home (t : trie) (p h : Z) (ks : list Z) : Prop := mkhome {
  o_inv : inv t; o_p : node t p; o_nz : L t p <> 0; o_fam : family t (L t p) ks; o_out : ~ In p ks;
  o_h : K < h <= N - K; o_free : forall x, In x (L t p :: ks) -> C t (x + (h - L t p)) = 0 }.

Section Home.
Context (t t' : trie) (p h : Z) (ks : list Z) (HO : home t p h ks).
Let lp := L t p.
Let d := h - lp.
Let F := lp :: ks.

Lemma home_head : head t lp /\ L t lp = p /\ K < lp <= N - K.
Proof.
  destruct HO as [I P NZ FA OUT RH FR]. destruct (i_link _ _ t I p P NZ) as [H1 H2]. destruct (i_head _ _ t I _ H1 NZ) as (H3 & _). auto.
Qed.
Lemma home_kid x : In x ks -> node t x /\ x - C t x = lp /\ lp < x < lp + K.
Proof.
  destruct HO as [I P NZ (NE & CH & D & FA) OUT RH FR]. intros X. apply FA in X. destruct X as [X1 X2]. split; auto. split; auto.
  fold lp in X2. pose proof (i_small _ _ t I x X1). destruct home_head as (_ & _ & R). destruct X1 as [_ X1]. lia.
Qed.
Lemma home_kid_link x : In x ks -> L t x <> 0 -> head t (L t x) /\ L t (L t x) = x /\ L t x <> lp.
Proof.
  intros X NZ. destruct (home_kid x X) as (X1 & _). destruct (i_link _ _ t (o_inv _ _ _ _ HO) x X1 NZ) as [H1 H2]. split; auto. split; auto.
  intros E. rewrite E in H2. destruct home_head as (_ & H3 & _). apply (o_out _ _ _ _ HO). congruence.
Qed.
Lemma free_C x : In x F -> C t (x + d) = 0.
Proof. apply (o_free _ _ _ _ HO). Qed.
Lemma full x y : C t y <> 0 -> In x F -> y <> x + d.
Proof. intros Y X ->. apply Y. now apply free_C. Qed.
Lemma node_full x : node t x -> C t x <> 0.
Proof. intros [_ X]. lia. Qed.
Lemma head_full x : head t x -> C t x <> 0.
Proof. intros [_ X]. pose proof (s_K _ _ t (i_shape _ _ t (o_inv _ _ _ _ HO))). lia. Qed.
Lemma node_head x : node t x -> head t x -> False.
Proof. intros [_ X] [_ Y]. lia. Qed.
Lemma F_full x : In x F -> C t x <> 0.
Proof. intros [<-|X]; [apply head_full, home_head|apply node_full, (home_kid x X)]. Qed.

Lemma home_movable : movable F d t.
Proof.
  destruct home_head as (H1 & H2 & H3). pose proof (s_K _ _ t (i_shape _ _ t (o_inv _ _ _ _ HO))) as HK. pose proof (s_N _ _ t (i_shape _ _ t (o_inv _ _ _ _ HO))) as HN. pose proof (o_h _ _ _ _ HO) as RH.
  constructor.
  - intros x X. assert (RX : lp <= x < lp + K) by (destruct X as [<-|X]; [lia|]; apply home_kid in X; lia). unfold TrieProofs.cell at 1 2. unfold d.
    split; [lia|]. split; [lia|]. split; [now apply F_full|]. split; [now apply free_C|]. destruct X as [<-|X]; [rewrite H2; apply (o_p _ _ _ _ HO)|].
    destruct (Z.eq_dec (L t x) 0) as [->|NZ]; [unfold TrieProofs.cell; lia|]. apply home_kid_link; auto.
  - intros x y X Y NZ. split; [|apply full; [|exact Y]].
    + intros E. destruct X as [<-|X], Y as [<-|Y].
      * rewrite H2 in E. apply (node_head lp); auto. rewrite <- E. apply (o_p _ _ _ _ HO).
      * rewrite H2 in E. apply (o_out _ _ _ _ HO). congruence.
      * destruct (home_kid_link x X NZ) as (_ & _ & G). congruence.
      * destruct (home_kid_link x X NZ) as (G & _ & _). rewrite E in G. apply (node_head y); auto. apply (home_kid y Y).
    + destruct X as [<-|X]; [rewrite H2; apply node_full, (o_p _ _ _ _ HO)|]. apply head_full, home_kid_link; auto.
  - intros x y X Y NZ E. destruct X as [<-|X], Y as [<-|Y]; auto.
    + exfalso. rewrite E in NZ. destruct (home_kid_link y Y NZ) as (G & _ & _). apply (node_head (L t y)); auto. rewrite <- E, H2. apply (o_p _ _ _ _ HO).
    + exfalso. destruct (home_kid_link x X NZ) as (G & _ & _). apply (node_head (L t x)); auto. rewrite E, H2. apply (o_p _ _ _ _ HO).
    + destruct (home_kid_link x X NZ) as (_ & G & _). rewrite E in NZ. destruct (home_kid_link y Y NZ) as (_ & G' & _). congruence.
Qed.

Context (M : moved F d t t') (SH : shape t') (FZ : t_frozen t' = t_frozen t) (SB : zlen (t_sib t') = N).

Lemma moved_h : lp + d = h.
Proof. unfold d. lia. Qed.
Lemma moved_keep y : C t y <> 0 -> ~ In y F -> C t' y = C t y /\ B t' y = B t y.
Proof. intros Y NF. apply (m_stay _ _ _ _ M); auto. intros x X. now apply full. Qed.
Lemma moved_gone y : C t' y <> 0 -> (exists x, In x F /\ y = x + d) \/ (~ In y F /\ (forall x, In x F -> y <> x + d) /\ C t' y = C t y /\ B t' y = B t y).
Proof.
  intros Y. destruct (in_dec Z.eq_dec y (map (fun x => x + d) F)) as [I|NI].
  - apply in_map_iff in I. destruct I as (x & <- & X). left. eauto.
  - right. assert (~ In y F) as NF by (intros X; destruct (m_to _ _ _ _ M y X) as (_ & E & _); congruence).
    assert (Q : forall x, In x F -> y <> x + d) by (intros x X ->; apply NI; apply in_map_iff; eauto). split; auto. split; auto. now apply (m_stay _ _ _ _ M).
Qed.
Lemma moved_link y : C t y <> 0 -> y <> p -> (forall x, In x ks -> L t x <> 0 -> y <> L t x) -> L t' y = L t y.
Proof.
  intros Y NP NK. apply (m_link _ _ _ _ M); [intros x X; now apply full|]. intros x [<-|X] NZ; [|auto]. destruct home_head as (_ & -> & _). auto.
Qed.
Lemma moved_node_link x : node t x -> x <> p -> L t' x = L t x.
Proof. intros X NP. apply moved_link; auto; [now apply node_full|]. intros y Y NZ ->. destruct (home_kid_link y Y NZ) as (G & _). now apply (node_head (L t y)). Qed.
Lemma moved_p : L t' p = h /\ L t' h = p /\ C t' h = K + 1.
Proof.
  destruct home_head as (H1 & H2 & H3). destruct (m_to _ _ _ _ M lp) as (A1 & _ & A3 & _ & A5); [cbn; auto|]. rewrite moved_h in *. rewrite H2 in *.
  split; [apply A5|split; [auto|rewrite A1; apply H1]]. destruct (o_p _ _ _ _ HO) as [_ X]. intros ->. pose proof (i_root _ _ t (o_inv _ _ _ _ HO)) as [Q _]. rewrite Q in X. lia.
Qed.
Lemma moved_node y : node t' y <-> (exists x, In x ks /\ y = x + d) \/ (node t y /\ ~ In y ks).
Proof.
  pose proof (v_cell _ _ _ home_movable) as VC. split.
  - intros [Y1 Y2]. destruct (moved_gone y) as [(x & X & ->)|(NF & _ & E & _)]; [lia| |].
    + destruct X as [<-|X]; [|left; eauto]. exfalso. rewrite moved_h in Y2. destruct moved_p as (_ & _ & E). lia.
    + right. rewrite E in Y2. split; [split; auto|]. intros X. apply NF. cbn. auto.
  - intros [(x & X & ->)|[Y NK]].
    + destruct (VC x) as (_ & X2 & _); [cbn; auto|]. destruct (m_to _ _ _ _ M x) as (A1 & _); [cbn; auto|]. split; auto. rewrite A1. apply (home_kid x X).
    + destruct (moved_keep y) as [E _]; [now apply node_full| |]. { intros [<-|X]; [|auto]. apply (node_head lp); auto. apply home_head. } split; [apply Y|rewrite E; apply Y].
Qed.
Lemma moved_head y : head t' y <-> y = h \/ (head t y /\ y <> lp).
Proof.
  pose proof (v_cell _ _ _ home_movable) as VC. pose proof (s_K _ _ t (i_shape _ _ t (o_inv _ _ _ _ HO))) as HK. split.
  - intros [Y1 Y2]. destruct (moved_gone y) as [(x & X & ->)|(NF & _ & E & _)]; [lia| |].
    + destruct X as [<-|X]; [left; apply moved_h|]. exfalso. destruct (m_to _ _ _ _ M x) as (A1 & _); [cbn; auto|]. destruct (home_kid x X) as ([_ X1] & _). lia.
    + right. split; [split; congruence|]. intros ->. apply NF. cbn. auto.
  - intros [->|[Y NE]].
    + destruct (VC lp) as (_ & X2 & _); [cbn; auto|]. rewrite moved_h in X2. split; [auto|apply moved_p].
    + destruct (moved_keep y) as [E _]; [now apply head_full| |]. { intros [X|X]; [congruence|]. apply (node_head y); auto. apply (home_kid y X). } split; [apply Y|rewrite E; apply Y].
Qed.
Lemma moved_C y : node t y -> ~ In y ks -> C t' y = C t y.
Proof. intros Y NK. apply moved_keep; [now apply node_full|]. intros [<-|X]; [|auto]. apply (node_head lp); auto. apply home_head. Qed.

Lemma moved_inv : inv t'.
Proof.
  destruct home_head as (H1 & H2 & H3). destruct moved_p as (P1 & P2 & P3). pose proof (o_inv _ _ _ _ HO) as I. pose proof (i_shape _ _ t I) as S. pose proof (s_K _ _ t S) as HK. pose proof (s_N _ _ t S) as HN.
  pose proof (o_p _ _ _ _ HO) as NP. pose proof (o_out _ _ _ _ HO) as OUT. pose proof (o_h _ _ _ _ HO) as RH.
  assert (KD : forall x, In x ks -> C t' (x + d) = C t x /\ L t' (x + d) = L t x /\ B t' (x + d) = u8 (B t x + u8 d) /\ (L t x <> 0 -> L t' (L t x) = x + d)).
  { intros x X. destruct (m_to _ _ _ _ M x) as (A1 & _ & A3 & A4 & A5); [cbn; auto|]. auto. }
  constructor.
  - exact SH.
  - rewrite FZ. apply (i_free _ _ t I).
  - exact SB.
  - intros x X. destruct (Z.eq_dec (C t' x) 0) as [->|NZ]; [lia|]. destruct (moved_gone x NZ) as [(y & Y & ->)|(_ & _ & -> & _)]; [|now apply (i_range _ _ t I)].
    destruct (m_to _ _ _ _ M y Y) as (-> & _). apply (i_range _ _ t I). apply (v_cell _ _ _ home_movable y Y).
  - destruct (i_root _ _ t I) as [A1 A2]. split.
    + destruct (moved_keep 0) as [E _]; [lia| |congruence]. intros [E|X]; [lia|]. apply home_kid in X. lia.
    + rewrite moved_link; [exact A2|lia|intros EP; rewrite <- EP in NP; destruct NP; lia|]. intros x X NZ E. congruence.
  - intros c Hc. assert (E : C t c = c) by (apply (i_top _ _ t I); lia). destruct (moved_keep c) as [E' _]; [lia| |congruence]. intros [E1|X]; [lia|]. apply home_kid in X. lia.
  - intros x X. apply moved_node in X. destruct X as [(y & Y & ->)|[X NK]].
    + destruct (KD y Y) as (-> & _). destruct (home_kid y Y) as (_ & Y2 & _). replace (y + d - C t y) with h; [apply moved_head; auto|]. pose proof moved_h. lia.
    + rewrite moved_C by auto. apply moved_head. right. split; [now apply (i_parent _ _ t I)|]. intros E. apply NK. destruct (o_fam _ _ _ _ HO) as (_ & _ & _ & FA). apply FA. auto.
  - intros x X. apply moved_node in X. destruct X as [(y & Y & ->)|[X NK]].
    + destruct (KD y Y) as (-> & _). destruct (home_kid y Y) as (Y1 & Y2 & _). intros _. apply (i_small _ _ t I); auto. lia.
    + rewrite moved_C by auto. now apply (i_small _ _ t I).
  - intros x X Zx. apply moved_head in X. destruct X as [->|[X NE]].
    + rewrite P2. split; [exact RH|]. split; [apply moved_node; auto|exact P1].
    + destruct (i_head _ _ t I x X Zx) as (A1 & A2 & A3). split; [exact A1|]. destruct (in_dec Z.eq_dec (L t x) ks) as [X'|NX'].
      * destruct (KD _ X') as (B1 & B2 & _ & B4). rewrite A3 in *. rewrite B4 by auto. split; [apply moved_node; left; eauto|exact B2].
      * assert (EX : L t' x = L t x). { apply moved_link; [now apply head_full|intros ->; now apply (node_head p)|]. intros y Y NZ E. apply NX'. rewrite E. destruct (home_kid_link y Y NZ) as (_ & -> & _). exact Y. }
        rewrite EX. split; [apply moved_node; auto|]. rewrite moved_node_link; auto. intros E. rewrite E in A3. apply NE. symmetry. exact A3.
  - intros x X Zx. apply moved_node in X. destruct X as [(y & Y & ->)|[X NK]].
    + destruct (KD y Y) as (_ & E & _ & B4). rewrite E in *. destruct (home_kid_link y Y Zx) as (G1 & G2 & G3). split; [apply moved_head; auto|]. auto.
    + destruct (Z.eq_dec x p) as [->|NE]; [rewrite P1; split; [apply moved_head; auto|exact P2]|].
      rewrite moved_node_link in * by auto. destruct (i_link _ _ t I x X Zx) as [A1 A2].
      assert (L t x <> lp) by (intros E; rewrite E in A2; congruence). split; [apply moved_head; auto|].
      rewrite moved_link; auto; [now apply head_full|intros E; rewrite E in A1; now apply (node_head p)|].
      intros y Y NZ E. destruct (home_kid_link y Y NZ) as (_ & G & _). rewrite <- E, A2 in G. congruence.
  - intros x X Zx. apply moved_head in X. destruct X as [->|[X NE]].
    + destruct (o_fam _ _ _ _ HO) as (NE & CH & D & FA). exists (map (fun x => x + d) ks). split; [destruct ks; [tauto|discriminate]|]. split; [|split; [now apply desc_map|]].
      * fold lp in CH. assert (CH' := chain_map (B t) (B t') d ks lp lp). rewrite moved_h in CH'. apply CH'; auto. intros x X.
        assert (XF : In x F) by (cbn; intuition). destruct (m_to _ _ _ _ M x XF) as (_ & _ & _ & -> & _). unfold d. rewrite u8_delta; [reflexivity|].
        assert (BF : In (B t x) F) by (apply (chain_next (B t) ks lp lp x CH X)).
        destruct (v_cell _ _ _ home_movable _ BF) as (_ & Q & _). unfold TrieProofs.cell, d in Q. lia.
      * intros y. rewrite in_map_iff, moved_node. split.
        { intros (x & <- & X). destruct (KD x X) as (-> & _). destruct (home_kid x X) as (_ & X2 & _). split; [left; eauto|]. pose proof moved_h. lia. }
        { intros [[(x & X & ->)|[Y NK]] E]; [eauto|]. exfalso. rewrite moved_C in E by auto. destruct (i_parent _ _ t I y Y) as [_ A]. rewrite E in A.
          pose proof (free_C lp (or_introl eq_refl)) as Q. rewrite moved_h in Q. lia. }
    + destruct (i_fam _ _ t I x X Zx) as (ls & NE' & CH' & D' & FA'). exists ls. split; [exact NE'|]. split; [|split; [exact D'|]].
      * apply (chain_ext (B t)); auto. intros y Y. apply moved_keep.
        { destruct Y as [->|Y]; [now apply head_full|]. apply FA' in Y. apply node_full. tauto. }
        { destruct Y as [->|Y]; intros [E|Y'].
          - congruence.
          - apply (node_head x); auto. apply (home_kid x Y').
          - apply FA' in Y. subst y. apply (node_head lp); tauto.
          - apply FA' in Y. destruct (home_kid y Y') as (_ & E & _). lia. }
      * intros y. rewrite FA', moved_node. split.
        { intros [Y1 Y2]. assert (~ In y ks) by (intros Y'; destruct (home_kid y Y') as (_ & E & _); lia). rewrite moved_C by auto. auto. }
        { intros [[(z & Z1 & ->)|[Y NK]] E]; [|rewrite moved_C in E by auto; auto]. exfalso. destruct (KD z Z1) as (E' & _). rewrite E' in E.
          destruct (home_kid z Z1) as (_ & E2 & _). pose proof moved_h. assert (XH : x = h) by lia. pose proof (free_C lp (or_introl eq_refl)) as Q. rewrite moved_h in Q. destruct X as [_ X]. rewrite XH in X. lia. }
Qed.

(* where the words are afterwards *)
Lemma moved_At_to v x : At t v x -> (In x ks -> At t' v (x + d)) /\ (~ In x ks -> At t' v x).
Proof.
  destruct home_head as (H1 & H2 & H3). destruct moved_p as (P1 & P2 & P3). pose proof (o_inv _ _ _ _ HO) as I. pose proof (i_shape _ _ t I) as S. pose proof (s_K _ _ t S) as HK. pose proof (o_h _ _ _ _ HO) as RH.
  induction 1 as [c R|v q c A [IH1 IH2] R NZ E].
  - unfold TrieProofs.letter in R. split; [intros X; apply home_kid in X; lia|]. intros _. now constructor.
  - pose proof (At_node _ _ _ _ _ I A) as NQ. unfold TrieProofs.letter in R. destruct (Z.eq_dec q p) as [->|NE].
    + fold lp in E. fold lp. assert (X : In (lp + c) ks). { destruct (o_fam _ _ _ _ HO) as (_ & _ & _ & FA). apply FA. fold lp. rewrite E. split; [|lia]. split; [apply (C_cell N K _ _ S); lia|lia]. }
      split; [|tauto]. intros _. destruct (m_to _ _ _ _ M (lp + c)) as (A1 & _); [cbn; auto|]. replace (lp + c + d) with (h + c) in * by (pose proof moved_h; lia).
      rewrite <- P1. constructor; [apply IH2, (o_out _ _ _ _ HO)|exact R|rewrite P1; lia|]. rewrite P1. congruence.
    + assert (G : L t q <> lp). { intros EQ. destruct (i_link _ _ t I q NQ NZ) as [_ Q]. rewrite EQ in Q. congruence. }
      assert (X : ~ In (L t q + c) ks). { intros X. apply home_kid in X. destruct X as (_ & X & _). rewrite E in X. lia. }
      split; [tauto|]. intros _. assert (NC : node t (L t q + c)) by (split; [apply (C_cell N K _ _ S)|]; rewrite E; lia).
      destruct (in_dec Z.eq_dec q ks) as [QK|QK].
      * destruct (m_to _ _ _ _ M q) as (_ & _ & A3 & _); [cbn; auto|]. rewrite <- A3. constructor; auto; rewrite A3; auto. now rewrite moved_C.
      * rewrite <- (moved_node_link q NQ NE). constructor; auto; rewrite (moved_node_link q NQ NE); auto. now rewrite moved_C.
Qed.
Lemma moved_At_from v y : At t' v y -> exists x, At t v x /\ ((In x ks /\ y = x + d) \/ (~ In x ks /\ y = x)).
Proof.
  destruct home_head as (H1 & H2 & H3). destruct moved_p as (P1 & P2 & P3). pose proof (o_inv _ _ _ _ HO) as I. pose proof (i_shape _ _ t I) as S. pose proof (s_K _ _ t S) as HK. pose proof (o_h _ _ _ _ HO) as RH.
  induction 1 as [c R|v y c A IH R NZ E].
  - exists c. split; [now constructor|]. right. split; auto. unfold TrieProofs.letter in R. intros X. apply home_kid in X. lia.
  - destruct IH as (x & X & Y). pose proof (At_node _ _ _ _ _ I X) as NX. unfold TrieProofs.letter in R. pose proof (free_C lp (or_introl eq_refl)) as Q. rewrite moved_h in Q.
    destruct (moved_gone (L t' y + c)) as [(z & Z1 & EQ)|(NF & ND & EC & _)]; [lia| |].
    + destruct (m_to _ _ _ _ M z Z1) as (A1 & _). rewrite <- EQ, E in A1. destruct Z1 as [<-|Z1]; [destruct H1; lia|]. destruct (home_kid z Z1) as (Z2 & Z3 & _).
      assert (EH : L t' y = h) by (pose proof moved_h; lia). assert (y = p).
      { assert (NY : node t' y) by (apply moved_node; destruct Y as [[Y ->]|[Y ->]]; [left; eauto|auto]). destruct (i_link _ _ t' moved_inv y NY NZ) as [_ G]. rewrite EH in G. congruence. }
      subst y. exists z. assert (x = p). { destruct Y as [[YK Y]|[_ Y]]; [|auto]. exfalso. apply (node_full p (o_p _ _ _ _ HO)). rewrite Y. apply free_C. cbn. auto. } subst x.
      split; [|left; split; auto; congruence]. replace z with (L t p + c) by (fold lp; lia). constructor; auto; [apply (o_nz _ _ _ _ HO)|]. fold lp. replace (lp + c) with z by lia. congruence.
    + rewrite E in EC. symmetry in EC. destruct (Z.eq_dec x p) as [->|NE].
      * destruct Y as [[Y _]|[_ ->]]; [exfalso; now apply (o_out _ _ _ _ HO)|]. rewrite P1 in *. exfalso.
        destruct (i_parent _ _ t I (h + c)) as [_ G]; [split; [apply (C_cell N K _ _ S)|]; lia|]. rewrite EC in G. replace (h + c - c) with h in G by lia. lia.
      * assert (EL : L t' y = L t x). { destruct Y as [[Y ->]|[Y ->]]; [apply (m_to _ _ _ _ M x); cbn; auto|now apply moved_node_link]. }
        rewrite EL in *. exists (L t x + c). split; [now constructor|]. right. split; auto. intros X'. apply NF. cbn. auto.
Qed.
End Home.
End Move.
