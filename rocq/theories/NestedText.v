(* NestedText.v -- from the text to the tree of resolved runs, for texts with isolates. *)
From Coq Require Import List ZArith Lia Bool.
From Verif Require Import Base Scrap Brackets Trie Rules RuleProofs Reorder ReorderSpec ReorderProofs SplitProofs Scanner ScannerProofs Resolver ResolverProofs ResolverFlat ResolverNested ResolverText Uax9Spec Uax9Text.
Import ListNotations.
Open Scope Z_scope.

(* ---- the texts ----
   [cs] are the classes of the characters.  A non-spacing mark gets the class of the character before it,
   after an isolate character that of [mark_of] (scanner.go:240-249; an FSI is doubled). *)
Definition mark_of (p : Z) : Z := if p =? cLRI then cL else if p =? cRLI then cR else if p =? cPDI then cNI else p.
Definition class_of (p c : Z) : Z := if c =? cNSM then mark_of p else c.
Fixpoint marked (p : Z) (cs : list Z) : list Z :=
  match cs with [] => [] | c :: t => let k := class_of p c in k :: marked k t end.

(* The strong class for numbers, as far as it is known: AL once an AL has occurred; after an isolate it is
   not known (NI) until the next strong character. *)
Definition strong_next (rtl : bool) (st k : Z) : Z :=
  if (st =? cAL) || (k =? cAL) then cAL else if (k =? cL) || (k =? cLRI) then cL else if (k =? cR) || (k =? cRLI) then cR
  else if (k =? cPDI) && rtl then cNI else st.
(* As calm of ResolverText.v, with isolates. *)
Fixpoint quiet (rtl : bool) (st prev : Z) (cs : list Z) : bool :=
  match cs with
  | [] => true
  | c :: t =>
      let k := class_of prev c in
      negb ((k =? cEN) && negb (st =? cL)) &&
      (if rtl then negb ((k =? cAN) && (raw_neutral prev || (prev =? cPDI))) else negb ((k =? cR) || (k =? cAL) || (k =? cRLI))) &&
      quiet rtl (strong_next rtl st k) k t
  end.

(* Of the classes of the scraps: every initiator has its PDI; an initiator with k initiators before it is
   followed by at least 3k+2 scraps. *)
Definition initiator (c : Z) : bool := (c =? cLRI) || (c =? cRLI) || (c =? cFSI).
Fixpoint closed (d : nat) (cs : list Z) : bool :=
  match cs with
  | [] => (d =? 0)%nat
  | c :: t => if initiator c then closed (S d) t
              else if c =? cPDI then match d with O => false | S d => closed d t end
              else closed d t
  end.
Fixpoint roomy (k : nat) (cs : list Z) : bool :=
  match cs with
  | [] => true
  | c :: t => if initiator c then (3 * k + 2 <=? length t)%nat && roomy (S k) t else roomy k t
  end.

Lemma initiator_isinit s : initiator (clz s) = isinit s.
Proof.
  unfold initiator, isinit, isisolate. destruct (Z.eqb_spec (clz s) cPDI) as [->|_]; [reflexivity|]. rewrite orb_false_r. cbn [negb]. rewrite andb_true_r. reflexivity.
Qed.
Lemma roomy_room1 : forall ss k, roomy k (map clz ss) = true -> room1 k ss.
Proof.
  induction ss as [|s t IH]; intros k H; cbn [map roomy room1] in *; [exact I|]. rewrite initiator_isinit in H. destruct (isinit s).
  - apply andb_true_iff in H. destruct H as [H1 H2]. apply Nat.leb_le in H1. rewrite map_length in H1. auto.
  - split; [discriminate|auto].
Qed.

Lemma closed_bal : forall n ss, (length ss <= n)%nat ->
  (closed 0 (map clz ss) = true -> bal ss) /\
  (forall d, closed (S d) (map clz ss) = true -> exists b p t, ss = b ++ p :: t /\ bal b /\ clz p = cPDI /\ closed d (map clz t) = true).
Proof.
  induction n as [|n IH]; intros ss LE.
  { destruct ss; [|cbn in LE; lia]. split; [constructor|discriminate]. }
  destruct ss as [|s t]; [split; [constructor|discriminate]|]. cbn [length] in LE. cbn [map closed]. rewrite initiator_isinit.
  destruct (IH t ltac:(lia)) as [IH1 IH2]. destruct (isinit s) eqn:EI.
  - split; intros; [|revert H].
    + destruct (IH2 _ H) as (b & p & u & -> & B1 & P1 & C1). rewrite app_length in LE. cbn [length] in LE.
      apply bal_iso; auto. apply (IH u ltac:(lia)). exact C1.
    + intros H. destruct (IH2 _ H) as (b & p & u & -> & B1 & P1 & C1). rewrite app_length in LE. cbn [length] in LE.
      destruct (IH u ltac:(lia)) as [_ IH3]. destruct (IH3 _ C1) as (b2 & p2 & u2 & -> & B2 & P2 & C2).
      exists (s :: b ++ p :: b2), p2, u2. split; [cbn [app]; rewrite <- app_assoc; reflexivity|]. split; [apply bal_iso; auto|]. auto.
  - destruct (Z.eqb_spec (clz s) cPDI) as [EP|EP].
    + split; [discriminate|]. intros d H. exists [], s, t. split; [reflexivity|]. split; [constructor|]. auto.
    + assert (NI : isisolate s = false).
      { unfold isinit in EI. apply Z.eqb_neq in EP. rewrite EP in EI. cbn in EI. rewrite andb_true_r in EI. exact EI. }
      split; [intros H; apply bal_plain; auto|]. intros d H. destruct (IH2 _ H) as (b & p & u & -> & B1 & P1 & C1).
      exists (s :: b), p, u. split; [reflexivity|]. split; [apply bal_plain; auto|]. auto.
Qed.

(* ---- the scanner ---- *)
Definition solo_class (c : Z) : bool := bracket_class c || is_isolate c.
Definition after2 (cur : scrap) : Z :=
  if (clz cur =? cL) || (clz cur =? cLRI) then cL else if (clz cur =? cR) || (clz cur =? cRLI) then cR else strong (sctx cur).
Definition lr (d : dirctx) : Prop := edir d = cL \/ edir d = cR.

Section Text.
Context (md : mode) (props : Z -> Z * Z) (upper : Z -> bool).
Notation eff := (eff md props upper).
Notation para := (para md props).
Notation classes := (classes_of md props upper).
Context (rtl : bool).

Definition SCn (st : scst) (cur : scrap) (al : Z) : Prop := exists s p,
  quiet rtl s p (classes (para (s_rest st))) = true /\ kids cur = [] /\ clz cur = norm p /\
  (lr (sctx cur) /\ Forall lr (s_ctx st)) /\
  (s = cAL \/ al < 0 /\ (s = cNI \/ s = after2 cur /\ clz cur <> cPDI) /\ strong (sctx cur) <> cAL /\ Forall (fun d => strong d <> cAL) (s_ctx st) \/
   rtl = false) /\
  (rtl = false -> s = cL /\ al < 0 /\ clz cur <> cR /\ clz cur <> cRLI /\
     Forall (fun d => strong d = cL /\ edir d = cL) (sctx cur :: s_ctx st)) /\
  (clz cur = cNULL \/ is_class (clz cur) /\ (clz cur = cEN -> strong (sctx cur) = cL)).

Definition SQn (s : scrap) : Prop :=
  is_class (clz s) /\ kids s = [] /\ lr (sctx s) /\ (clz s = cEN -> dcContext (sctx s) = cL) /\ (rtl = false -> only_l s).
Definition SRn (a b : scrap) : Prop := et_ok a b /\ (rtl = true -> an_after a b).

Lemma quiet_cons s p c t : quiet rtl s p (c :: t) = true ->
  let k := class_of p c in
  (k = cEN -> s = cL) /\ (rtl = true -> k = cAN -> raw_neutral p = false /\ p <> cPDI) /\
  (rtl = false -> k <> cR /\ k <> cAL /\ k <> cRLI) /\ quiet rtl (strong_next rtl s k) k t = true.
Proof.
  intros H. cbn [quiet] in H. set (k := class_of p c) in *. cbv zeta.
  apply andb_true_iff in H. destruct H as [H H4]. apply andb_true_iff in H. destruct H as [H2 H3].
  split; [|split; [|split; [|exact H4]]].
  - intros E. rewrite E in H2. change (cEN =? cEN) with true in H2. cbn [andb] in H2. rewrite negb_involutive in H2. apply Z.eqb_eq. exact H2.
  - intros -> E. rewrite E in H3. change (cAN =? cAN) with true in H3. cbn [andb] in H3. apply negb_true_iff, orb_false_iff in H3.
    destruct H3 as [H3 H5]. apply Z.eqb_neq in H5. auto.
  - intros ->. apply negb_true_iff, orb_false_iff in H3. destruct H3 as [A C]. apply orb_false_iff in A. destruct A as [A B].
    apply Z.eqb_neq in A, B, C. auto.
Qed.

Lemma norm_iso_eq c p : In c [cLRI; cRLI; cPDI; cFSI] -> (norm p =? c) = (p =? c).
Proof.
  intros I. unfold norm. destruct (Z.eqb_spec p cAL) as [->|_]; [cbn in I; decompose [or] I; subst; try reflexivity; contradiction|].
  destruct ((p =? cS) || (p =? cWS) || (p =? cON)) eqn:E; [|reflexivity].
  repeat rewrite orb_true_iff in E. rewrite !Z.eqb_eq in E. cbn in I. decompose [or] I; destruct E as [[E|E]|E]; subst; try reflexivity; contradiction.
Qed.

Lemma norm_PDI p : norm p = cPDI -> p = cPDI.
Proof. unfold norm. destruct (p =? cAL); [discriminate|]. destruct (_ || _); [discriminate|]. auto. Qed.

(* The class of the lookahead. *)
Lemma la_class2 c cur p : clz cur = norm p -> (c = cEN -> strong (sctx cur) <> cAL) ->
  applyRulesW1to3 c cur = norm (class_of p c).
Proof.
  intros C E. unfold applyRulesW1to3, class_of. destruct (c =? cNSM) eqn:EN.
  - rewrite C, !norm_iso_eq by (cbn; tauto). unfold mark_of.
    destruct (p =? cLRI); [reflexivity|]. destruct (p =? cRLI); [reflexivity|]. destruct (p =? cPDI); [reflexivity|]. reflexivity.
  - destruct (Z.eqb_spec c cEN) as [->|NE].
    + destruct (Z.eqb_spec (strong (sctx cur)) cAL) as [X|_]; [exfalso; apply E; auto|reflexivity].
    + cbn [andb]. unfold norm. reflexivity.
Qed.

Lemma inherit2 la cur al : clz cur <> cAL ->
  let x := inheritStrongTypes la cur al in
  clz x = clz la /\ kids x = kids la /\ (lr (sctx cur) -> lr (sctx x)) /\
  (clz la <> cRLI -> edir (sctx cur) = cL -> edir (sctx x) = cL) /\
  (al < 0 -> clz la <> cLRI -> clz la <> cRLI -> strong (sctx x) = after2 cur) /\
  (al < 0 -> strong (sctx x) = strong (sctx cur) \/ strong (sctx x) = after2 cur).
Proof.
  intros NA. cbv zeta. unfold inheritStrongTypes, initiator, lr, after2.
  destruct (Z.eqb_spec (clz la) cLRI) as [E1|E1]; [cbn; repeat (split; auto); intros; congruence|].
  destruct (Z.eqb_spec (clz la) cRLI) as [E2|E2]; [cbn; repeat (split; auto); intros; congruence|].
  cbn [with_ctx clz kids sctx]. split; auto. split; auto.
  assert (ED : forall d, edir (if (clz cur =? cL) || (clz cur =? cLRI) then set_strong d cL (sl cur)
     else if (clz cur =? cR) || (clz cur =? cRLI) then set_strong d cR (sl cur) else if clz cur =? cAL then set_strong d cAL (sl cur) else d) = edir d).
  { intros d. destruct (_ || _); [apply set_strong_edir|]. destruct (_ || _); [apply set_strong_edir|]. destruct (_ =? _); [apply set_strong_edir|reflexivity]. }
  rewrite !ED.
  assert (EA : edir (if 0 <=? al then set_strong (sctx cur) cAL (u32 al) else sctx cur) = edir (sctx cur)).
  { destruct (0 <=? al); [apply set_strong_edir|reflexivity]. }
  rewrite !EA. split; auto. split; auto.
  assert (ST : al < 0 -> strong (if (clz cur =? cL) || (clz cur =? cLRI) then set_strong (if 0 <=? al then set_strong (sctx cur) cAL (u32 al) else sctx cur) cL (sl cur)
     else if (clz cur =? cR) || (clz cur =? cRLI) then set_strong (if 0 <=? al then set_strong (sctx cur) cAL (u32 al) else sctx cur) cR (sl cur)
     else if clz cur =? cAL then set_strong (if 0 <=? al then set_strong (sctx cur) cAL (u32 al) else sctx cur) cAL (sl cur)
     else if 0 <=? al then set_strong (sctx cur) cAL (u32 al) else sctx cur) = after2 cur).
  { intros A. unfold after2. destruct (Z.leb_spec 0 al); [lia|]. destruct (_ || _); [apply set_strong_L|]. destruct (_ || _); [apply set_strong_R|].
    destruct (Z.eqb_spec (clz cur) cAL) as [X|_]; [contradiction|reflexivity]. }
  unfold after2 in ST. split; auto.
Qed.

Lemma SCn_preserved (PO : props_ok props) : preserved md props upper None SCn SRn.
Proof.
  intros st cur al r len c st1 out st' cur' al' (s & p & CA & KI & CC & (ED & EDS) & ST & NR & CL) FT RD R1 LN.
  destruct FT as [(F1 & F2 & F3)|(X & _)]; [|congruence]. rewrite F3 in RD.
  rewrite F2 in CA. unfold classes_of in CA. cbn [map fst] in CA. apply quiet_cons in CA. set (k := class_of p (eff r)) in *.
  destruct CA as (C2 & C3 & C4 & C5). fold (classes (para (s_rest st1))) in C5. rewrite <- R1 in C5.
  assert (EA : eff r = cEN -> strong (sctx cur) <> cAL).
  { intros E. assert (K1 : k = cEN) by (unfold k, class_of; rewrite E; reflexivity). specialize (C2 K1).
    destruct ST as [X|[(_ & _ & X & _)|X]]; [rewrite X in C2; discriminate|exact X|].
    destruct (NR X) as (_ & _ & _ & _ & F). inversion F as [|? ? [F1' _] _]; subst. rewrite F1'. discriminate. }
  assert (LC : applyRulesW1to3 (eff r) cur = norm k) by (apply la_class2; auto).
  assert (NC : clz cur <> cNULL -> norm k <> cNULL).
  { intros N. rewrite <- LC. apply apply_null; auto. apply eff_null; auto. }
  assert (CK : norm k = cNULL \/ is_class (norm k)).
  { unfold k, class_of. destruct (_ =? _); [|right; apply norm_class, eff_class, PO]. unfold mark_of.
    destruct (p =? cLRI); [right; split; discriminate || reflexivity|]. destruct (p =? cRLI); [right; split; discriminate || reflexivity|].
    destruct (p =? cPDI); [right; split; discriminate || reflexivity|]. rewrite <- CC. tauto. }
  assert (NA : clz cur <> cAL) by (rewrite CC; apply norm_not_AL).
  assert (SA : s = cAL -> strong_next rtl s k = cAL) by (intros ->; reflexivity).
  (* the next strong class, from the class of the scrap *)
  assert (SN : s <> cAL -> k <> cAL -> strong_next rtl s k =
     if (norm k =? cL) || (norm k =? cLRI) then cL else if (norm k =? cR) || (norm k =? cRLI) then cR else if (norm k =? cPDI) && rtl then cNI else s).
  { intros N NK. unfold strong_next. apply Z.eqb_neq in N. apply Z.eqb_neq in NK. rewrite N, NK. cbn [orb].
    rewrite !(norm_iso_eq cLRI), !(norm_iso_eq cRLI), !(norm_iso_eq cPDI) by (cbn; tauto). unfold norm. rewrite NK.
    destruct ((k =? cS) || (k =? cWS) || (k =? cON)) eqn:EN; [|reflexivity].
    destruct (Z.eqb_spec k cL) as [->|_]; [discriminate|]. destruct (Z.eqb_spec k cR) as [->|_]; [discriminate|]. reflexivity. }
  assert (AE : eff r = cAL -> k = cAL) by (intros E; unfold k, class_of; rewrite E; reflexivity).
  assert (KA : k = cAL -> strong_next rtl s k = cAL) by (intros ->; unfold strong_next; rewrite orb_true_r; reflexivity).
  assert (NR' : rtl = false -> strong_next rtl s k = cL /\ norm k <> cR /\ norm k <> cRLI).
  { intros X. destruct (NR X) as (N1 & _). destruct (C4 X) as (K1 & K2 & K3).
    assert (FR : norm k <> cR) by (intros E; apply norm_R in E; tauto).
    assert (FI : norm k <> cRLI) by (rewrite <- Z.eqb_neq in K3 |- *; rewrite norm_iso_eq by (cbn; tauto); exact K3).
    rewrite SN by (auto; rewrite N1; discriminate). pose proof FR as FR'. pose proof FI as FI'. apply Z.eqb_neq in FR', FI'.
    rewrite FR', FI', X, andb_false_r. destruct (_ || _); auto. }
  destruct RD as (H' & L' & [(-> & -> & EC & NN & B1 & B2 & -> & EX)|(EO & FI & (d & DD & ->) & -> & EX & _)]).
  - (* the same class again *)
    cbn [la_of clz] in EC. rewrite LC in EC.
    assert (NP : norm k <> cPDI). { rewrite EC. intros X. unfold isisolate in B2. rewrite X in B2. discriminate. }
    split; [|split; [cbn; auto|intros X; congruence]].
    exists (strong_next rtl s k), k. split; [exact C5|]. cbn [collapse clz kids sctx la_of]. rewrite app_nil_r, EX.
    split; auto. split; [congruence|]. split; [auto|]. split; [|split].
    + destruct ST as [X|[(A1 & A2 & A3 & A4)|X]]; [left; auto| |auto].
      destruct (Z.eq_dec s cAL) as [X|X]; [left; auto|]. destruct (Z.eq_dec k cAL) as [Y|Y]; [left; auto|].
      right. left. split; auto. split; [|auto]. rewrite (SN X Y), EC. unfold after2 in *. cbn [collapse clz sctx].
      apply Z.eqb_neq in NP. rewrite EC in NP. rewrite NP. cbn [andb].
      destruct A2 as [A2|[A2 A2']].
      * apply Z.eqb_neq in NP. destruct ((clz cur =? cL) || (clz cur =? cLRI)); [auto|]. destruct ((clz cur =? cR) || (clz cur =? cRLI)); auto.
      * right. split; [|exact A2']. rewrite A2. destruct ((clz cur =? cL) || (clz cur =? cLRI)); [auto|]. destruct ((clz cur =? cR) || (clz cur =? cRLI)); auto.
    + intros X. destruct (NR X) as (N1 & N2 & N3 & N4 & N5). destruct (NR' X) as (S1 & _). auto.
    + exact CL.
  - (* a new scrap *)
    set (cur1 := with_ctx cur d) in *.
    assert (C1 : clz cur1 = clz cur) by reflexivity. assert (S1 : sctx cur1 = d) by reflexivity.
    assert (IND : In d (sctx cur :: s_ctx st)) by (destruct DD as [X|[_ X]]; [left; auto|right; auto]).
    assert (LRD : lr d).
    { destruct IND as [<-|I]; auto. rewrite Forall_forall in EDS. auto. }
    set (la := la_of cur (eff r) len) in *. assert (LK : clz la = norm k) by exact LC.
    destruct (inherit2 la cur1 al) as (I1 & I2 & I3 & I4 & I5 & I6); [rewrite C1; exact NA|].
    set (x := inheritStrongTypes la cur1 al) in *. rewrite LK in I1, I4, I5. rewrite S1 in I3, I4, I6.
    assert (AFT : forall st2, incl (s_ctx st2) (sctx cur :: s_ctx st) -> Forall lr (s_ctx st2)).
    { intros st2 I. apply Forall_forall. intros y Y. destruct (I y Y) as [<-|Z0]; auto. rewrite Forall_forall in EDS. auto. }
    assert (AFT2 : clz cur <> cPDI -> after2 cur1 = after2 cur).
    { intros X. assert (D : d = sctx cur) by (destruct DD as [Y|[Y _]]; [auto|contradiction]). unfold cur1. rewrite D. destruct cur; reflexivity. }
    assert (EDL : rtl = false -> strong (sctx x) = cL /\ edir (sctx x) = cL).
    { intros X. destruct (NR X) as (N1 & N2 & N3 & N4 & N5). destruct (NR' X) as (T1 & T2 & T3). rewrite Forall_forall in N5. destruct (N5 d IND) as [D1 D2].
      split; [|auto]. assert (A2 : after2 cur1 = cL).
      { unfold after2. rewrite C1, S1. apply Z.eqb_neq in N3, N4. rewrite N3, N4, D1. destruct ((clz cur =? cL) || (clz cur =? cLRI)); reflexivity. }
      destruct (I6 N2) as [Y|Y]; congruence. }
    split; [|split; [rewrite I1; auto|]].
    + exists (strong_next rtl s k), k. split; [exact C5|].
      split; [rewrite I2; reflexivity|]. split; auto. split; [split; auto|].
      split; [|split].
      * destruct rtl eqn:ER; [|auto]. rewrite <- ER in *. destruct ST as [X|[(A1 & A2 & A3 & A4)|X]]; [left; auto| |auto].
        destruct (Z.eq_dec s cAL) as [X|X]; [left; auto|]. destruct (Z.eq_dec k cAL) as [Y|Y]; [left; auto|].
        assert (E : eff r <> cAL) by (intros Z0; auto). apply Z.eqb_neq in E. rewrite E. right. left. split; auto.
        assert (DA : strong d <> cAL). { destruct IND as [<-|I]; auto. rewrite Forall_forall in A4. auto. }
        assert (AX : after2 cur1 <> cAL).
        { unfold after2. rewrite C1, S1. destruct ((clz cur =? cL) || (clz cur =? cLRI)); [discriminate|]. destruct ((clz cur =? cR) || (clz cur =? cRLI)); [discriminate|]. exact DA. }
        split; [|split].
        -- rewrite (SN X Y). unfold after2 at 1. rewrite I1.
           destruct ((norm k =? cL) || (norm k =? cLRI)) eqn:E1.
           { right. split; [reflexivity|]. intros Z0. rewrite Z0 in E1. discriminate. }
           destruct ((norm k =? cR) || (norm k =? cRLI)) eqn:E2.
           { right. split; [reflexivity|]. intros Z0. rewrite Z0 in E2. discriminate. }
           destruct (Z.eqb_spec (norm k) cPDI) as [Z0|Z0].
           { left. rewrite ER. reflexivity. }
           cbn [andb]. destruct A2 as [A2|[A2 A2']]; [auto|].
           right. split; [|exact Z0]. apply orb_false_iff in E1, E2. destruct E1 as [_ E1]. destruct E2 as [_ E2]. apply Z.eqb_neq in E1, E2.
           rewrite I5; auto. rewrite AFT2; auto.
        -- destruct (I6 A1) as [Z0|Z0]; rewrite Z0; auto.
        -- apply Forall_forall. intros y I. destruct (EX y I) as [<-|Z0]; auto. rewrite Forall_forall in A4. auto.
      * intros X. destruct (NR X) as (N1 & N2 & N3 & N4 & N5). destruct (NR' X) as (T1 & T2 & T3). destruct (EDL X) as (E1 & E2).
        split; auto. split. { destruct (Z.eqb_spec (eff r) cAL) as [E|_]; [|exact N2]. destruct (C4 X) as (_ & K2 & _). elim (K2 (AE E)). }
        rewrite I1. split; auto. split; auto. constructor; [auto|]. apply Forall_forall. intros y I. rewrite Forall_forall in N5. apply N5, EX, I.
      * rewrite I1. destruct CK as [X|X]; [auto|]. right. split; auto. intros E. pose proof (norm_EN _ E) as E'. specialize (C2 E').
        destruct ST as [Y|[(A1 & A2 & _)|Y]]; [rewrite Y in C2; discriminate| |apply (EDL Y)].
        destruct A2 as [A2|[A2 A2']]; [rewrite A2 in C2; discriminate|].
        rewrite I5; [rewrite AFT2 by exact A2'; congruence|exact A1|rewrite E; discriminate|rewrite E; discriminate].
    + intros ON b EB EBX. assert (NN : clz cur <> cNULL). { intros E. rewrite E in EO. cbn in EO. congruence. }
      split.
      * split.
        -- intros E1 E2. rewrite EB, I1 in E2. apply norm_EN in E2. specialize (C2 E2). unfold dcContext.
           assert (X : strong (sctx cur) = cL); [|rewrite X; reflexivity].
           destruct ST as [Y|[(A1 & A2 & A3)|Y]]; [rewrite Y in C2; discriminate| |].
           ++ destruct A2 as [A2|[A2 _]]; [rewrite A2 in C2; discriminate|]. unfold after2 in A2. rewrite E1 in A2. cbn in A2. congruence.
           ++ destruct (NR Y) as (_ & _ & _ & _ & F). inversion F as [|? ? [F1' _] _]; auto.
        -- intros [E1 E2]. rewrite EB, I1 in E2. unfold isbracket, isisolate in FI. rewrite E1 in FI. rewrite <- LK in E2.
           destruct FI as [X|[X|[X|X]]]; try discriminate X. congruence.
      * intros X E. rewrite EB, I1 in E. apply norm_AN in E. destruct (C3 X E) as [Y1 Y2]. rewrite CC, norm_ntr. split; auto.
        intros Z0. apply Y2, norm_PDI, Z0.
Qed.

Lemma SCn_exported : exported SCn SQn.
Proof.
  intros st cur al (s & p & CA & KI & CC & (ED & EDS) & ST & NR & CL) NN. destruct CL as [X|[CL EN]]; [congruence|].
  split; auto. split; auto. split; auto. split. { intros E. unfold dcContext. rewrite (EN E). reflexivity. }
  intros X. destruct (NR X) as (N1 & N2 & N3 & N4 & N5). apply Forall_inv in N5. destruct N5 as [S1 S2]. unfold only_l, dcStrong. rewrite S1, S2.
  split; auto. split; [discriminate|auto].
Qed.

Lemma SCn_start input : (rtl = false -> m_r2l md = false) -> quiet rtl cL cNULL (classes (para input)) = true ->
  SCn (newScanner input) (initialOuterScrap md false) (-1).
Proof.
  intros LR Q. exists cL, cNULL. split; [exact Q|]. unfold initialOuterScrap, after2, lr.
  destruct (m_r2l md) eqn:EM; cbn; (split; [auto|]; split; [auto|]; split; [auto|]; split; [right; left; split; [lia|]; split; [right; split; [auto|discriminate]|]; split; [discriminate|auto]|]);
    (split; [|auto]); intros X; [discriminate (LR X)|]. repeat (split; auto; try lia; try discriminate).
Qed.

(* ---- the scraps are the runs ---- *)
Definition chars2 (p : Z) (l : list (Z * Z)) : list (Z * Z) := combine (map norm (marked p (classes l))) (map snd l).
Lemma marked_norm : forall cs p p', norm p = norm p' -> map norm (marked p cs) = map norm (marked p' cs).
Proof.
  induction cs as [|c t IH]; intros p p' H; [reflexivity|]. cbn [marked map]. unfold class_of.
  destruct (c =? cNSM); [|reflexivity].
  assert (N : norm (mark_of p) = norm (mark_of p')).
  { unfold mark_of. rewrite <- !(norm_iso_eq cLRI p), <- !(norm_iso_eq cRLI p), <- !(norm_iso_eq cPDI p) by (cbn; tauto).
    rewrite <- !(norm_iso_eq cLRI p'), <- !(norm_iso_eq cRLI p'), <- !(norm_iso_eq cPDI p') by (cbn; tauto). rewrite H.
    destruct (_ =? cLRI); [reflexivity|]. destruct (_ =? cRLI); [reflexivity|]. destruct (_ =? cPDI); [reflexivity|exact H]. }
  rewrite N. f_equal. apply IH, N.
Qed.
Lemma mark_norm p : norm (mark_of (norm p)) = norm (mark_of p).
Proof.
  unfold mark_of. rewrite !(norm_iso_eq cLRI), !(norm_iso_eq cRLI), !(norm_iso_eq cPDI) by (cbn; tauto).
  destruct (_ =? cLRI); [reflexivity|]. destruct (_ =? cRLI); [reflexivity|]. destruct (_ =? cPDI); [reflexivity|apply norm_norm].
Qed.

Lemma quiet_class st cur al r t : SCn st cur al -> classes (para (s_rest st)) = eff r :: t ->
  exists p, clz cur = norm p /\ applyRulesW1to3 (eff r) cur = norm (class_of p (eff r)).
Proof.
  intros (s & p & CA & KI & CC & _ & ST & NR & _) E. rewrite E in CA. apply quiet_cons in CA. destruct CA as (C2 & _).
  exists p. split; auto. apply la_class2; auto. intros X. assert (K1 : class_of p (eff r) = cEN) by (unfold class_of; rewrite X; reflexivity). specialize (C2 K1).
  destruct ST as [Y|[(_ & _ & Y & _)|Y]]; [rewrite Y in C2; discriminate|exact Y|].
  destruct (NR Y) as (_ & _ & _ & _ & F). apply Forall_inv in F. destruct F as [F _]. rewrite F. discriminate.
Qed.

Lemma runs_loop2 (PO : props_ok props) : forall n st cur al,
  hok st -> lens_ok (s_rest st) -> 0 <= sl cur <= sr cur -> sr cur + total (para (s_rest st)) < 2 ^ 32 ->
  clz cur <> cNULL -> SCn st cur al -> (mu st (sr cur) < n)%nat ->
  exists ss, scan_loop md props upper None n st cur al = Ok (ss ++ [stopper]) /\
    map srun ss = runs_of solo_class (srun cur :: chars2 (clz cur) (para (s_rest st))).
Proof.
  induction n as [|n IH]; intros st cur al H L P B NN II M; [lia|]. cbn [scan_loop].
  destruct (step_spec md props upper None st cur al H L (Z.le_trans _ _ _ (proj1 P) (proj2 P)) B)
    as [[-> EP]|(out & st' & cur' & al' & r & len & c & st1 & -> & RD & R1 & LN & TT & MU & SR & FT)]; cbn [lift rbind].
  - exists [cur]. split; [reflexivity|]. rewrite EP. reflexivity.
  - destruct (SCn_preserved PO st cur al r len c st1 out st' cur' al' II FT RD R1 LN) as (II' & NN' & _).
    specialize (NN' NN). destruct RD as (H' & L' & RD).
    assert (SLR : sl cur' <= sr cur' /\ 0 <= sl cur').
    { destruct RD as [(_ & -> & _)|(_ & _ & (d & _ & ->) & _)]; cbn; lia. }
    destruct (IH st' cur' al' H' L') as (ss & -> & RS); auto; [lia|lia|lia|]. cbn [rbind].
    destruct FT as [(F1 & F2 & F3)|(X & _)]; [|congruence]. rewrite <- R1 in F2. rewrite F3 in RD.
    destruct (quiet_class st cur al r (classes (para (s_rest st'))) II) as (p & CC & LC).
    { rewrite F2. reflexivity. }
    set (k := class_of p (eff r)) in *.
    assert (CH : chars2 (clz cur) (para (s_rest st)) = (norm k, len) :: chars2 (norm k) (para (s_rest st'))).
    { rewrite F2. unfold chars2, classes_of. cbn [map fst snd marked]. set (k' := class_of (clz cur) _).
      assert (NK : norm k' = norm k). { unfold k', k, class_of. destruct (eff r =? cNSM); [rewrite CC; apply mark_norm|reflexivity]. }
      cbn [map combine]. rewrite NK. f_equal. f_equal. apply marked_norm. rewrite norm_norm. exact NK. }
    rewrite CH. destruct RD as [(-> & -> & EC & _ & EB & EI & _)|(-> & FI & (d & _ & EC) & _)].
    + exists ss. split; [reflexivity|]. rewrite RS. cbn [la_of clz] in EC. rewrite LC in EC. rewrite EC.
      unfold srun at 1 2. cbn [collapse clz sl sr la_of]. rewrite runs_of_join. 2: { unfold solo_class. apply orb_false_iff. auto. }
      replace (sr cur + len - sl cur) with (sr cur - sl cur + len) by lia. reflexivity.
    + destruct (clz cur =? cNULL) eqn:EN; [apply Z.eqb_eq in EN; congruence|].
      assert (CK : srun cur' = (norm k, len)). { rewrite EC. unfold srun. cbn [inheritStrongTypes with_ctx clz sl sr la_of]. rewrite LC. f_equal. lia. }
      assert (CKc : clz cur' = norm k) by (injection CK; auto).
      exists (cur :: ss). split; [reflexivity|]. cbn [map]. rewrite RS, CK, CKc. unfold srun at 1 2. symmetry. apply runs_of_new.
      unfold solo_class. destruct FI as [X|[X|[X|X]]]; [congruence|left|right|right].
      * cbn [la_of clz] in X. rewrite LC in X. exact X.
      * apply orb_true_iff. left. exact X.
      * apply orb_true_iff. right. exact X.
Qed.

(* The scraps are the runs of the classes after W1 and W3; brackets and isolate characters are not joined. *)
Theorem scan_runs2 input r len rest : props_ok props -> lens_ok input -> total (para input) < 2 ^ 32 ->
  para input = (r, len) :: rest -> eff r <> cNSM -> (rtl = false -> m_r2l md = false) ->
  quiet rtl cL cNULL (classes (para input)) = true ->
  exists ss, Scan md props upper None input = Ok (ss ++ [stopper]) /\
    map srun ss = runs_of solo_class (chars2 cNULL (para input)).
Proof.
  intros PO L B EP EF LR CA. unfold Scan. pose proof (SCn_start input LR CA) as I0.
  set (st := newScanner input) in *. set (cur := initialOuterScrap md false) in *.
  assert (CN : clz cur = cNULL) by (unfold cur, initialOuterScrap; destruct (m_r2l md); reflexivity).
  assert (CL : sl cur = 0 /\ sr cur = 0) by (unfold cur, initialOuterScrap; destruct (m_r2l md); auto).
  destruct CL as [CL CR].
  replace (3 * length input + 4)%nat with (S (3 * length input + 3)) by lia. cbn [scan_loop].
  destruct (step_spec md props upper None st cur (-1) (new_ok input)) as [[_ E]|(out & st' & cur' & al' & r' & len' & c & st1 & -> & RD & R1 & LN & TT & MU & SR & FT)];
    [exact L|lia|rewrite CR; exact B|change (s_rest st) with input in E; congruence|]. cbn [lift rbind].
  pose proof (SCn_preserved PO st cur (-1) r' len' c st1 out st' cur' al' I0 FT RD R1 LN) as (I1 & _ & _).
  destruct FT as [(F1 & F2 & F3)|(X & _)]; [|congruence].
  change (s_rest st) with input in *. rewrite EP in F2. injection F2 as <- <- F2.
  destruct RD as (H' & L' & RD). rewrite F3 in RD.
  destruct RD as [(_ & _ & _ & X & _)|(EO & _ & (d & DD & EC) & _)]; [congruence|].
  destruct (quiet_class st cur (-1) r (classes rest) I0) as (p & CC & LC).
  { change (s_rest st) with input. rewrite EP. reflexivity. }
  unfold class_of in LC. apply Z.eqb_neq in EF. rewrite EF in LC. apply Z.eqb_neq in EF.
  assert (CK : clz cur' = norm (eff r)) by (rewrite EC; exact LC).
  assert (NN : clz cur' <> cNULL).
  { rewrite EC. change (applyRulesW1to3 (eff r) cur <> cNULL). apply apply_null; auto. apply eff_null; auto. }
  assert (SL : sl cur' = 0) by (rewrite EC; exact CR).
  destruct (runs_loop2 PO (3 * length input + 3) st' cur' al') as (ss & -> & RS); auto; try lia.
  { rewrite CR in MU. unfold st in MU. rewrite mu_start in MU. lia. }
  exists ss. rewrite EO, CN. cbn [rbind app Z.eqb]. split; [reflexivity|]. rewrite RS, EP. unfold srun. rewrite SL, SR, CR, CK, R1, <- F2.
  unfold chars2, classes_of. cbn [map fst snd marked]. unfold class_of. apply Z.eqb_neq in EF. rewrite EF. cbn [map combine]. f_equal. f_equal; [f_equal; lia|].
  f_equal. apply marked_norm. apply norm_norm.
Qed.

(* ---- the isolate characters of the text: class, first byte, byte behind ---- *)
Fixpoint spots (pos : Z) (l : list (Z * Z)) : list (Z * Z * Z) :=
  match l with
  | [] => []
  | (c, n) :: t => (if is_isolate c then [(c, pos, pos + n)] else []) ++ spots (pos + n) t
  end.
Lemma spots_runs : forall l pos, spots pos (runs_of solo_class l) = spots pos l.
Proof.
  induction l as [|[c n] t IH]; intros pos; [reflexivity|]. cbn [spots]. rewrite <- IH. cbn [runs_of].
  destruct (runs_of solo_class t) as [|[d m] u]; [reflexivity|]. destruct (Z.eqb_spec c d) as [<-|_]; [|reflexivity].
  destruct (solo_class c) eqn:ES; [reflexivity|]. cbn [andb negb spots]. unfold solo_class in ES. apply orb_false_iff in ES. destruct ES as [_ ->].
  cbn [app]. rewrite Z.add_assoc. reflexivity.
Qed.
Lemma spots_marks : forall ss lo hi, tiles lo ss hi -> Forall (fun s => kids s = []) ss -> marks ss = spots lo (map srun ss).
Proof.
  induction ss as [|s t IH]; intros lo hi T F; [reflexivity|]. destruct T as (T1 & T2 & T3). inversion F as [|? ? F1 F2]; subst.
  rewrite marks_cons, smarks_eq, F1. cbn [flat_map map spots]. unfold srun at 1. cbn [fst snd]. replace (sl s + (sr s - sl s)) with (sr s) by lia.
  rewrite app_nil_r. f_equal. apply (IH _ hi); auto.
Qed.

(* What the scanner sends. *)
Theorem scan_quiet input r len rest : props_ok props -> lens_ok input -> total (para input) < 2 ^ 32 ->
  para input = (r, len) :: rest -> eff r <> cNSM -> (rtl = false -> m_r2l md = false) ->
  quiet rtl cL cNULL (classes (para input)) = true ->
  exists ss, Scan md props upper None input = Ok (ss ++ [stopper]) /\ N1 rtl 0 (total (para input)) (marks ss) ss /\
    map srun ss = runs_of solo_class (chars2 cNULL (para input)) /\ marks ss = spots 0 (chars2 cNULL (para input)) /\
    Forall (fun s => clz s <> cNULL) ss /\ (length ss <= S (length input))%nat.
Proof.
  intros PO L B EP EF LR CA.
  destruct (scan_from_start md props upper None SCn SQn SRn input r len rest (SCn_preserved PO) SCn_exported PO) as (ss & E & T & F & LK); auto.
  { apply SCn_start; auto. }
  exists ss. split; [exact E|]. pose proof E as E0. unfold Scan in E0. apply scan_count in E0; [|exact L]. rewrite app_length in E0. cbn [newScanner s_rest length] in E0.
  destruct (scan_runs2 input r len rest) as (ss' & E' & RS); auto. rewrite E in E'. injection E' as E'. apply app_inj_tail in E'. destruct E' as [<- _].
  split; [|split; [exact RS|split; [|split; [|lia]]]].
  - split.
    { assert (TS : Forall (fun s => sl s <= sr s) ss).
      { clear - T. revert T. generalize 0. induction ss as [|s t IH]; intros lo T; [constructor|]. destruct T as (T1 & T2 & T3). constructor; [lia|eauto]. }
      rewrite Forall_forall in F, TS |- *. intros s I. destruct (F s I) as (N & Q1 & Q2 & Q3 & Q4 & _). split; auto. split; auto. split; [|split; auto].
      rewrite Q2. constructor. apply TS, I. }
    split. { eapply linked_impl; [|exact LK]. intros a b (X & _). exact X. }
    split; [exact T|]. split; [|reflexivity]. unfold numbers1. destruct rtl eqn:ER.
    + eapply linked_impl; [|exact LK]. intros a b (_ & X). exact (X ER).
    + eapply Forall_impl; [|exact F]. intros s (_ & _ & _ & _ & _ & X). exact (X ER).
  - rewrite <- spots_runs, <- RS. apply (spots_marks ss 0 _ T). eapply Forall_impl; [|exact F]. intros s (_ & _ & X & _). exact X.
  - eapply Forall_impl; [|exact F]. intros s (X & _). exact X.
Qed.

(* ---- resolving ---- *)
Theorem resolve_text_nested input r len rest n : props_ok props -> lens_ok input -> total (para input) < 2 ^ 32 ->
  para input = (r, len) :: rest -> eff r <> cNSM -> (rtl = false -> m_r2l md = false) ->
  quiet rtl cL cNULL (classes (para input)) = true ->
  closed 0 (map fst (runs_of solo_class (chars2 cNULL (para input)))) = true ->
  roomy 0 (map fst (runs_of solo_class (chars2 cNULL (para input)))) = true ->
  (rounds (S (length input)) <= n)%nat ->
  exists lv, ResolveParagraph n md props upper None input = Ok (lv, []) /\
    resolved_tree md (total (para input)) (spots 0 (chars2 cNULL (para input))) lv.
Proof.
  intros PO L B EP EF LR CA CL RM FU. unfold ResolveParagraph. rewrite prepared. cbn [rbind].
  destruct (scan_quiet input r len rest) as (ss & E & G & RS & MS & NN & LE); auto. rewrite E. cbn [rbind].
  destruct (ScanFinal_ok md props upper None input L B) as (st & -> & TM). cbn [rbind].
  assert (CZ : map clz ss = map fst (runs_of solo_class (chars2 cNULL (para input)))) by (rewrite <- RS, map_map; reflexivity).
  rewrite <- CZ in CL, RM. rewrite <- MS.
  apply (resolve_nested findBracket changeBracket rtl (SI rtl) (find_ok rtl) (change_ok rtl) md (total (para input)) ss stopper [] st n); auto.
  - apply (proj1 (closed_bal (length ss) ss (le_n _)) CL).
  - apply roomy_room1, RM.
  - apply tame_SI, TM.
  - assert ((rounds (length ss) <= rounds (S (length input)))%nat); [|lia]. unfold rounds. nia.
Qed.
End Text.

(* ---- trees of finite depth; cutting the paragraph into lines ---- *)
Fixpoint depth (s : scrap) : nat :=
  match s with
  | mks _ _ _ _ ks => S (fold_right Nat.max 0 (map (fun k => fold_right Nat.max 0 (map depth k)) ks))%nat
  end.
Definition deep (ch : list scrap) : nat := fold_right Nat.max 0%nat (map depth ch).
Definition deeps (ks : list (list scrap)) : nat := fold_right Nat.max 0%nat (map deep ks).
Lemma depth_eq s : depth s = S (deeps (kids s)).
Proof. destruct s. reflexivity. Qed.
Lemma max_in {A} (f : A -> nat) x : forall l, In x l -> (f x <= fold_right Nat.max 0%nat (map f l))%nat.
Proof. induction l as [|y l IH]; [intros []|]. cbn [map fold_right]. intros [->|I]; [lia|]. specialize (IH I). lia. Qed.

Lemma forest_tree : forall n lo ks hi, forest lo ks hi -> (deeps ks <= n)%nat -> Forall (tree_ok (S n)) ks.
Proof.
  induction n as [n IH] using lt_wf_ind. intros lo ks hi F. induction F as [lo hi LE|lo hi i body p ks LO II KI PP KP T SA FB FK IHk]; intros D; [constructor|].
  assert (D1 : (deep (i :: body ++ [p]) <= n)%nat /\ (deeps ks <= n)%nat) by (unfold deeps in *; cbn [map fold_right] in D; lia). destruct D1 as [D1 D2].
  constructor; [|auto]. split; [discriminate|]. split; [eauto|].
  assert (X : forall s, In s (i :: body ++ [p]) -> (S (deeps (kids s)) <= n)%nat).
  { intros s I. pose proof (max_in depth s _ I) as X. rewrite depth_eq in X. unfold deep in D1. lia. }
  apply Forall_forall. intros s I. pose proof (X s I) as XS. destruct I as [<-|I]; [rewrite KI; constructor|]. apply in_app_iff in I.
  destruct I as [I|[<-|[]]]; [|rewrite KP; constructor]. rewrite Forall_forall in FB.
  destruct n as [|n]; [lia|]. apply (IH n ltac:(lia) (sl s) (kids s) (sr s)); auto. lia.
Qed.

(* A resolved paragraph can be cut into lines anywhere. *)
Theorem resolved_lines md tot M lv ats : resolved_tree md tot M lv -> cuts_in 0 ats tot ->
  exists n ls, cut_lines (split n) (lv_scraps lv) ats = Some ls /\ lines_cover 0 ats tot ls.
Proof.
  intros (_ & T & body & E & SA & FB & _) CU. set (D := deeps (flat_map kids body)).
  exists (S (S D)). apply cut_paragraph; auto.
  - rewrite E in T |- *. destruct (initial_fields md) as (I1 & I2 & I3 & _ & _ & I6 & _).
    exists [initial md], (body ++ [mks cPDI tot tot dc0 []]). split; [reflexivity|]. cbn [tiles] in T. destruct T as (_ & _ & T).
    rewrite I3 in T. split; [exact T|]. split.
    + apply Forall_app. split; [|repeat constructor]. eapply Forall_impl; [|exact SA]. intros s (_ & X & _) Y. congruence.
    + right. exists (initial md). split; auto. split; auto. split; [congruence|]. rewrite I2. lia.
  - rewrite E. constructor; [destruct (initial_fields md) as (-> & _); constructor|]. apply Forall_app. split; [|repeat constructor].
    rewrite Forall_forall in FB |- *. intros s I. apply (forest_tree D (sl s) _ (sr s)); auto.
    unfold D, deeps. clear - I. induction body as [|x body IH]; [destruct I|]. cbn [flat_map]. rewrite map_app, fold_right_app.
    assert (G : forall l m, (fold_right Nat.max 0 l <= fold_right Nat.max m l)%nat /\ (m <= fold_right Nat.max m l)%nat).
    { clear. induction l as [|a l IH]; intros m; cbn; [lia|]. destruct (IH m). lia. }
    destruct I as [->|I]; [apply G|]. etransitivity; [apply IH, I|]. apply G.
Qed.
