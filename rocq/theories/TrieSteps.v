(* TrieSteps.v -- the steps of an insertion keep the invariant of TrieProofs.v. *)
From Coq Require Import List ZArith Lia Bool Sorted.
From Verif Require Import Base Trie TrieProofs.
Import ListNotations.
Open Scope Z_scope.

Section Steps.
Context (N K : Z).
Notation inv := (inv N K). Notation node := (node N K). Notation head := (head N K). Notation cell := (cell N). Notation letter := (letter K).
Notation shape := (shape N K). Notation added := (added N K). Notation At := (At K). Notation family := (family N K).

Ltac eqs := repeat match goal with |- context [?a =? ?b] => destruct (Z.eqb_spec a b) end.

Lemma last_in {A} (us : list A) a : us <> [] -> In (last us a) us.
Proof. intros NE. destruct (exists_last NE) as (l & b & ->). rewrite last_last. apply in_app_iff. cbn. auto. Qed.
Lemma desc_insert us vs q : desc (us ++ vs) -> (forall x, In x us -> q < x) -> (forall x, In x vs -> x < q) -> desc (us ++ q :: vs).
Proof.
  induction us as [|u us IH]; cbn [app]; intros D U V.
  - constructor; auto. apply Forall_forall. intros x X. specialize (V x X). lia.
  - inversion D as [|? ? D' F]; subst. constructor.
    + apply IH; auto. intros x X. apply U. cbn. auto.
    + apply Forall_forall. intros x X. rewrite Forall_forall in F. apply in_app_iff in X. cbn [In] in X. destruct X as [X|[<-|X]].
      * apply F, in_app_iff. auto.
      * specialize (U u). cbn in U. specialize (U (or_introl eq_refl)). lia.
      * apply F, in_app_iff. auto.
Qed.
(* the chain with a new member behind us *)
Lemma chain_insert s s' a us vs q z : chain s a (us ++ vs) z -> desc (us ++ vs) -> ~ In a (us ++ vs) -> ~ In q (us ++ vs) -> a <> q ->
  (forall x, s' x = if x =? last us a then q else if x =? q then s (last us a) else s x) -> chain s' a (us ++ q :: vs) z.
Proof.
  revert a. induction us as [|u us IH]; intros a CH D NA NQ AQ E; cbn [app] in *.
  - cbn [last] in E. cbn [chain]. split; [rewrite E, Z.eqb_refl; reflexivity|].
    assert (SQ : s' q = s a). { rewrite E. replace (q =? a) with false by lia. now rewrite Z.eqb_refl. }
    destruct vs as [|v vs]; cbn [chain] in *; [congruence|]. destruct CH as [C1 C2]. split; [congruence|]. apply (chain_ext s); auto.
    intros x X. rewrite E. assert (IX : In x (v :: vs)) by (cbn; intuition). destruct (Z.eqb_spec x a) as [->|]; [tauto|]. destruct (Z.eqb_spec x q) as [->|]; [tauto|auto].
  - rewrite last_cons in E. cbn [chain] in *. destruct CH as [C1 C2]. inversion D as [|? ? D' F]; subst u. rewrite Forall_forall in F.
    split.
    + rewrite E. destruct (Z.eqb_spec a (last us (s a))) as [EQ|]; [|replace (a =? q) with false by lia; auto].
      exfalso. apply NA. destruct us as [|w us]; [cbn in EQ |- *; auto|]. right. apply in_app_iff. left. rewrite EQ. apply last_in. discriminate.
    + apply IH; auto.
      * intros X. specialize (F _ X). lia.
      * intros X. apply NQ. cbn. auto.
      * intros EQ. apply NQ. cbn. auto.
Qed.

Lemma insertChild_ok t p h c : inv t -> node t p -> L t p = h -> h <> 0 -> letter c -> C t (h + c) = 0 ->
  exists t', insertChild t p (h + c) c = Ok (h + c, t') /\ inv t' /\ added t t' p h c.
Proof.
  intros I P EP NZ R FR. pose proof (i_shape _ _ t I) as S. pose proof (s_K _ _ t S) as HK. pose proof (s_N _ _ t S) as HN. unfold TrieProofs.letter in R.
  pose proof (i_sib _ _ t I) as SB. destruct (i_link _ _ t I p P) as [HH HB]; [congruence|]. rewrite EP in HH, HB.
  destruct (i_head _ _ t I h HH NZ) as (RH & _ & _). destruct (i_fam _ _ t I h HH NZ) as (ks & NE & CH & D & FA).
  assert (KS : forall x, In x ks -> h < x < h + K). { intros x X. apply FA in X. destruct X as [[X1 X2] X3]. pose proof (i_small _ _ t I x (conj X1 X2)). lia. }
  assert (NQ : ~ In (h + c) ks). { intros X. apply FA in X. destruct X as [[_ X] _]. lia. }
  unfold insertChild. rewrite (link_ok N K) by (auto; apply P). cbn [rbind]. rewrite EP.
  destruct (sib_loop_ok N t (h + c) SB 256 ks h h CH) as (us & vs & EK & E0 & U & V); auto; try lia.
  - apply HH.
  - intros x X. apply KS in X. unfold TrieProofs.cell. lia.
  - assert (G : Z.of_nat (length ks) <= Z.max 0 (h + K - (h + 1))). { apply desc_length; [exact D|]. apply Forall_forall. intros x X. apply KS in X. lia. } lia.
  - rewrite E0. cbn [rbind]. set (g := last us h).
    assert (GC : g = h \/ In g us). { unfold g. destruct us as [|w us]; [auto|]. right. apply last_in. discriminate. }
    assert (GK : g = h \/ In g ks) by (rewrite EK, in_app_iff; tauto).
    assert (CG : cell g). { destruct GK as [->|X]; [apply HH|]. apply KS in X. unfold TrieProofs.cell. lia. }
    assert (QC : cell (h + c)) by (unfold TrieProofs.cell; lia). assert (QG : g <> h + c) by (destruct GK as [->|X]; [lia|congruence]).
    rewrite (sib_ok N) by auto. cbn [rbind].
    destruct (set_sib_ok N K t (h + c) (B t g) SB QC) as (t1 & -> & S1 & F1 & Z1 & L1 & B1 & C1). cbn [rbind]. specialize (S1 S).
    destruct (set_sib_ok N K t1 g (h + c)) as (t2 & -> & S2 & F2 & Z2 & L2 & B2 & C2); [lia|auto|]. cbn [rbind]. specialize (S2 S1).
    destruct (set_ch_ok N K t2 (h + c) c S2 QC) as (t3 & -> & S3 & F3 & Z3 & L3 & B3 & C3). cbn [rbind]. specialize (S3 S2).
    destruct (set_link_ok N K t3 (h + c) 0 S3 QC) as (t4 & -> & S4 & F4 & Z4 & L4 & B4 & C4). cbn [rbind]. specialize (S4 S3).
    unfold upd in *.
    assert (EC : forall x, C t4 x = if x =? h + c then c else C t x) by (intros x; rewrite C4, C3, C2, C1; reflexivity).
    assert (EL : forall x, L t4 x = if x =? h + c then 0 else L t x) by (intros x; rewrite L4, L3, L2, L1; reflexivity).
    assert (EB : forall x, B t4 x = if x =? g then h + c else if x =? h + c then B t g else B t x) by (intros x; rewrite B4, B3, B2, B1; reflexivity).
    clear L1 L2 L3 L4 B1 B2 B3 B4 C1 C2 C3 C4.
    assert (NX : forall x, node t4 x <-> node t x \/ x = h + c).
    { intros x. unfold TrieProofs.node. rewrite EC. destruct (Z.eqb_spec x (h + c)) as [->|NEx]; [|tauto]. rewrite FR. intuition lia. }
    assert (HX : forall x, head t4 x <-> head t x).
    { intros x. unfold TrieProofs.head. rewrite EC. destruct (Z.eqb_spec x (h + c)) as [->|NEx]; [|tauto]. rewrite FR. intuition lia. }
    exists t4. split; [reflexivity|]. split.
    + constructor.
      * exact S4.
      * rewrite F4, F3, F2, F1. apply (i_free _ _ t I).
      * lia.
      * intros x X. rewrite EC. pose proof (i_range _ _ t I x X). destruct (x =? h + c); lia.
      * rewrite EC, EL. replace (0 =? h + c) with false by lia. apply (i_root _ _ t I).
      * intros d Hd. rewrite EC. replace (d =? h + c) with false by lia. now apply (i_top _ _ t I).
      * intros x X. apply HX. rewrite EC. destruct (Z.eqb_spec x (h + c)) as [->|NEx]; [now replace (h + c - c) with h by lia|].
        apply (i_parent _ _ t I). apply NX in X. tauto.
      * intros x X. rewrite EC. destruct (Z.eqb_spec x (h + c)) as [->|NEx]; [lia|]. apply (i_small _ _ t I). apply NX in X. tauto.
      * intros x X Zx. apply HX in X. destruct (i_head _ _ t I x X Zx) as (A1 & A2 & A3). rewrite (EL x). destruct (Z.eqb_spec x (h + c)) as [->|NEx]; [destruct X; lia|].
        split; [exact A1|]. split; [apply NX; auto|]. rewrite EL. destruct (Z.eqb_spec (L t x) (h + c)) as [EQ|]; [|exact A3]. destruct A2 as [_ A2]. rewrite EQ in A2. lia.
      * intros x X. rewrite (EL x). destruct (Z.eqb_spec x (h + c)) as [->|NEx]; [lia|]. intros Zx. apply NX in X. destruct X as [X|]; [|lia].
        destruct (i_link _ _ t I x X Zx) as (A1 & A2). split; [now apply HX|]. rewrite EL. destruct (Z.eqb_spec (L t x) (h + c)) as [EQ|]; [|exact A2]. destruct A1 as [_ A1]. rewrite EQ in A1. lia.
      * intros x X Zx. apply HX in X. destruct (Z.eq_dec x h) as [->|NEh].
        { exists (us ++ (h + c) :: vs). split; [destruct us; discriminate|]. split; [|split].
          - rewrite EK in CH, NQ. apply (chain_insert (B t)); auto.
            + now rewrite <- EK.
            + rewrite <- EK. intros Y. apply KS in Y. lia.
            + lia.
          - apply desc_insert; auto. now rewrite <- EK.
          - intros y. rewrite in_app_iff. cbn [In]. rewrite NX. rewrite EC. assert (FA' := FA y). rewrite EK, in_app_iff in FA'.
            destruct (Z.eqb_spec y (h + c)) as [->|NEy]; [intuition lia|]. intuition congruence. }
        { destruct (i_fam _ _ t I x X Zx) as (ls & NE' & CH' & D' & FA'). exists ls. split; [exact NE'|]. split; [|split; [exact D'|]].
          - apply (chain_ext (B t)); auto. intros y Y. rewrite EB.
            assert (YC : C t y <> 0 /\ (y = h \/ In y ks -> False)).
            { destruct Y as [->|Y]; [split; [destruct X; lia|]; intros [|Y]; [lia|]; apply FA in Y; destruct Y as [[_ Y] _]; destruct X; lia|].
              apply FA' in Y. destruct Y as [[Yc Y] Y2]. split; [lia|]. intros [->|Y3]; [destruct HH; lia|]. apply FA in Y3. lia. }
            destruct YC as [Y0 YN]. destruct (Z.eqb_spec y g) as [->|]; [tauto|]. destruct (Z.eqb_spec y (h + c)) as [->|]; [congruence|auto].
          - intros y. rewrite FA', NX, EC. destruct (Z.eqb_spec y (h + c)) as [->|NEy]; [|intuition congruence]. unfold TrieProofs.node. rewrite FR. intuition lia. }
    + constructor; auto.
      * intros x. rewrite EC. eqs; auto. subst x. destruct HH. congruence.
      * intros x. rewrite EL. eqs; auto; congruence.
Qed.

Lemma insertFirstborn_ok t p c n : inv t -> node t p -> L t p = 0 -> letter c ->
  insertFirstborn t p c n = Panic \/ exists h t', insertFirstborn t p c n = Ok (h + c, t') /\ inv t' /\ added t t' p h c.
Proof.
  intros I P EP R. pose proof (i_shape _ _ t I) as S. pose proof (s_K _ _ t S) as HK. pose proof (s_N _ _ t S) as HN.
  unfold insertFirstborn. destruct (nominal_ok N K t n S) as (h0 & -> & R0). cbn [rbind].
  destruct (trial_ok N K t c S R tolerance h0 R0) as [->|(h & -> & RH & CH0 & FR)]; [auto|]. cbn [rbind]. right. exists h. unfold TrieProofs.letter in R.
  assert (HC : cell h) by (unfold TrieProofs.cell; lia). assert (QC : cell (h + c)) by (unfold TrieProofs.cell; lia). pose proof (i_sib _ _ t I) as SB.
  assert (PH : p <> h) by (intros ->; destruct P; lia). assert (PQ : p <> h + c) by (intros ->; destruct P; lia).
  destruct (set_link_ok N K t p h S) as (t1 & -> & S1 & F1 & Z1 & L1 & B1 & C1); [apply P|]. cbn [rbind]. specialize (S1 S).
  destruct (set_link_ok N K t1 h p S1 HC) as (t2 & -> & S2 & F2 & Z2 & L2 & B2 & C2). cbn [rbind]. specialize (S2 S1).
  cbv zeta. rewrite (u8_id (h + c)) by lia.
  destruct (set_ch_ok N K t2 h (t_header t2) S2 HC) as (t3 & -> & S3 & F3 & Z3 & L3 & B3 & C3). cbn [rbind]. specialize (S3 S2).
  rewrite (s_header _ _ t2 S2) in C3.
  destruct (set_ch_ok N K t3 (h + c) c S3 QC) as (t4 & -> & S4 & F4 & Z4 & L4 & B4 & C4). cbn [rbind]. specialize (S4 S3).
  destruct (set_sib_ok N K t4 h (h + c)) as (t5 & -> & S5 & F5 & Z5 & L5 & B5 & C5); [lia|auto|]. cbn [rbind]. specialize (S5 S4).
  destruct (set_sib_ok N K t5 (h + c) h) as (t6 & -> & S6 & F6 & Z6 & L6 & B6 & C6); [lia|auto|]. cbn [rbind]. specialize (S6 S5).
  destruct (set_link_ok N K t6 (h + c) 0 S6 QC) as (t7 & -> & S7 & F7 & Z7 & L7 & B7 & C7). cbn [rbind]. specialize (S7 S6).
  unfold upd in *.
  assert (EC : forall x, C t7 x = if x =? h + c then c else if x =? h then K + 1 else C t x) by (intros x; rewrite C7, C6, C5, C4, C3, C2, C1; reflexivity).
  assert (EL : forall x, L t7 x = if x =? h + c then 0 else if x =? h then p else if x =? p then h else L t x) by (intros x; rewrite L7, L6, L5, L4, L3, L2, L1; reflexivity).
  assert (EB : forall x, B t7 x = if x =? h + c then h else if x =? h then h + c else B t x) by (intros x; rewrite B7, B6, B5, B4, B3, B2, B1; reflexivity).
  clear L1 L2 L3 L4 L5 L6 L7 B1 B2 B3 B4 B5 B6 B7 C1 C2 C3 C4 C5 C6 C7.
  exists t7. split; [reflexivity|].
  assert (NX : forall x, node t7 x <-> node t x \/ x = h + c).
  { intros x. unfold TrieProofs.node. rewrite EC. destruct (Z.eqb_spec x (h + c)) as [->|NEx]; [rewrite FR; intuition lia|].
    destruct (Z.eqb_spec x h) as [->|NEh]; [rewrite CH0; intuition lia|tauto]. }
  assert (HX : forall x, head t7 x <-> head t x \/ x = h).
  { intros x. unfold TrieProofs.head. rewrite EC. destruct (Z.eqb_spec x (h + c)) as [->|NEx]; [rewrite FR; intuition lia|].
    destruct (Z.eqb_spec x h) as [->|NEh]; [rewrite CH0; intuition lia|tauto]. }
  assert (NH : forall x, C t x <> 0 -> x <> h /\ x <> h + c) by (intros x X; split; intros ->; congruence).
  assert (N0 : forall x, node t x -> C t x <> 0) by (intros x [_ X]; lia).
  assert (H0 : forall x, head t x -> C t x <> 0) by (intros x [_ X]; lia).
  assert (CK : forall x, C t x <> 0 -> C t7 x = C t x). { intros x X. destruct (NH x X). rewrite EC. eqs; congruence. }
  split.
  - constructor.
    + exact S7.
    + rewrite F7, F6, F5, F4, F3, F2, F1. apply (i_free _ _ t I).
    + lia.
    + intros x X. rewrite EC. pose proof (i_range _ _ t I x X). eqs; lia.
    + destruct (i_root _ _ t I) as [A1 A2]. split; [rewrite CK; lia|]. rewrite EL. replace (0 =? h + c) with false by lia. replace (0 =? h) with false by lia.
      destruct (Z.eqb_spec 0 p) as [<-|]; [destruct P; lia|auto].
    + intros d Hd. rewrite EC. replace (d =? h + c) with false by lia. replace (d =? h) with false by lia. now apply (i_top _ _ t I).
    + intros x X. apply HX. apply NX in X. destruct X as [X| ->].
      * rewrite CK by auto. left. now apply (i_parent _ _ t I).
      * rewrite EC, Z.eqb_refl. right. lia.
    + intros x X. apply NX in X. destruct X as [X| ->]; [rewrite CK by auto; now apply (i_small _ _ t I)|rewrite EC, Z.eqb_refl; lia].
    + intros x X Zx. apply HX in X. destruct X as [X| ->].
      * destruct (i_head _ _ t I x X Zx) as (A1 & A2 & A3). destruct (NH x (H0 x X)) as [X1 X2].
        assert (x <> p) by (intros ->; destruct X, P; lia).
        assert (EX : L t7 x = L t x) by (rewrite EL; eqs; congruence). rewrite EX. split; [exact A1|]. split; [apply NX; auto|].
        destruct (NH _ (N0 _ A2)) as [Y1 Y2]. rewrite EL. eqs; try congruence.
      * assert (E1 : L t7 h = p) by (rewrite EL; eqs; lia). rewrite E1. split; [exact RH|]. split; [apply NX; auto|]. rewrite EL; eqs; congruence.
    + intros x X Zx. apply NX in X. destruct X as [X| ->]; [|rewrite EL, Z.eqb_refl in Zx; lia]. destruct (NH x (N0 x X)) as [X1 X2].
      destruct (Z.eq_dec x p) as [->|NEp].
      * assert (E1 : L t7 p = h) by (rewrite EL; eqs; congruence). rewrite E1. split; [apply HX; auto|]. rewrite EL; eqs; congruence || lia.
      * assert (E1 : L t7 x = L t x) by (rewrite EL; eqs; congruence). rewrite E1 in *. destruct (i_link _ _ t I x X Zx) as (A1 & A2). split; [apply HX; auto|].
        destruct (NH _ (H0 _ A1)) as [Y1 Y2]. assert (L t x <> p) by (intros E2; rewrite E2 in A1; destruct A1, P; lia). rewrite EL; eqs; congruence.
    + intros x X Zx. apply HX in X. destruct (Z.eq_dec x h) as [->|NEh].
      * exists [h + c]. split; [discriminate|]. split; [|split].
        { cbn [chain]. rewrite !EB. eqs; lia. }
        { repeat constructor. }
        { intros y. cbn [In]. rewrite NX. split.
          - intros [<-|[]]. split; [auto|]. rewrite EC, Z.eqb_refl. lia.
          - intros [[Y|Y] E]; [|auto]. rewrite CK in E by auto. destruct (i_parent _ _ t I y Y) as [_ A1]. rewrite E in A1. congruence || lia. }
      * destruct X as [X|]; [|congruence]. destruct (i_fam _ _ t I x X Zx) as (ls & NE' & CH' & D' & FA'). exists ls. split; [exact NE'|]. split; [|split; [exact D'|]].
        { apply (chain_ext (B t)); auto. intros y Y. assert (C t y <> 0) as Y0 by (destruct Y as [->|Y]; [auto|apply FA' in Y; apply N0; tauto]).
          destruct (NH y Y0). rewrite EB. eqs; congruence. }
        { intros y. rewrite FA', NX. split.
          - intros [Y1 Y2]. rewrite CK by auto. auto.
          - intros [[Y|Y] E]; [rewrite CK in E by auto; auto|]. subst y. rewrite EC, Z.eqb_refl in E. lia. }
  - constructor; auto.
Qed.
End Steps.
