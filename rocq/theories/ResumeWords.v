(* ResumeWords.v -- words can be resumed at every boundary, if the rules are those of UAX#29. *)
From Coq Require Import List ZArith Lia Bool.
From Verif Require Import Base Words WordSpec BreakSpec BreakSpecProofs WordCor Resume.
Import ListNotations.
Open Scope Z_scope.

Definition MidL (m : Z) : bool := (m =? MidLetter) || MidNumLetQ m.
Definition MidN (m : Z) : bool := (m =? MidNum) || MidNumLetQ m.

(* a boundary between characters that are no line ends: no rule applies *)
Lemma no_rule a l c r : wb_boundary false (a :: l) (c :: r) = true -> newline a = false -> newline c = false ->
  extend c = false /\
  one AHLetter (a :: l) && MidL c && one AHLetter r = false /\
  one (Z.eqb Hebrew_Letter) (a :: l) && (Double_Quote =? c) && one (Z.eqb Hebrew_Letter) r = false /\
  one (Z.eqb Numeric) (a :: l) && MidN c && one (Z.eqb Numeric) r = false /\
  two MidL AHLetter (a :: l) && AHLetter c = false /\
  two (Z.eqb Double_Quote) (Z.eqb Hebrew_Letter) (a :: l) && (Hebrew_Letter =? c) = false /\
  two MidN (Z.eqb Numeric) (a :: l) && (Numeric =? c) = false /\
  (c =? RI) && Nat.odd (ri_run (a :: l)) = false.
Proof.
  intros B Na Nc. rewrite (Z.eqb_sym Double_Quote c), (Z.eqb_sym Hebrew_Letter c), (Z.eqb_sym Numeric c). unfold wb_boundary in B. rewrite Na, Nc in B. fold MidL MidN in B.
  change (fun m : Z => (m =? MidLetter) || MidNumLetQ m) with MidL in B. change (fun m : Z => (m =? MidNum) || MidNumLetQ m) with MidN in B.
  change ((c =? MidLetter) || MidNumLetQ c) with (MidL c) in B. change ((c =? MidNum) || MidNumLetQ c) with (MidN c) in B.
  repeat match type of B with context [if ?b then false else _] => destruct b eqn:?; [discriminate B|] end. repeat split; assumption.
Qed.

Definition rejects (P : Z -> bool) : Prop := forall c, newline c = true -> P c = false.
Lemma newline_cases c : newline c = true -> c = Newline \/ c = CR \/ c = LF.
Proof. unfold newline. rewrite !orb_true_iff, !Z.eqb_eq. tauto. Qed.
Lemma rejects_AH : rejects AHLetter. Proof. intros c N. destruct (newline_cases c N) as [->|[->| ->]]; reflexivity. Qed.
Lemma rejects_eq d : newline d = false -> rejects (Z.eqb d). Proof. intros D c N. destruct (Z.eqb_spec d c); [congruence|reflexivity]. Qed.
Lemma rejects_num : rejects (fun x => AHLetter x || (x =? Numeric) || (x =? Katakana) || (x =? ExtendNumLet)).
Proof. intros c N. destruct (newline_cases c N) as [->|[->| ->]]; reflexivity. Qed.
Lemma newline_plain c : newline c = true -> extend c = false.
Proof. intros N. destruct (newline_cases c N) as [->|[->| ->]]; reflexivity. Qed.
Lemma one_newline P c l : rejects P -> newline c = true -> one P (c :: l) = false.
Proof. intros R N. unfold one. cbn [skip]. rewrite (newline_plain c N). auto. Qed.
Lemma one_extend P c l : extend c = true -> one P (c :: l) = one P l.
Proof. intros E. unfold one. cbn [skip]. now rewrite E. Qed.
Lemma one_plain P c l : extend c = false -> one P (c :: l) = P c.
Proof. intros E. unfold one. cbn [skip]. now rewrite E. Qed.
Lemma two_extend P Q c l : extend c = true -> two P Q (c :: l) = two P Q l.
Proof. intros E. unfold two. cbn [skip]. now rewrite E. Qed.
Lemma two_plain P Q c l : extend c = false -> two P Q (c :: l) = P c && one Q l.
Proof. intros E. unfold two. cbn [skip]. now rewrite E. Qed.
Lemma ri_newline c l : newline c = true -> ri_run (c :: l) = 0%nat.
Proof. intros N. cbn [ri_run]. rewrite (newline_plain c N). destruct (newline_cases c N) as [->|[->| ->]]; reflexivity. Qed.
Lemma ri_extend c l : extend c = true -> ri_run (c :: l) = ri_run l.
Proof. intros E. cbn [ri_run]. now rewrite E. Qed.
Lemma one_over P V y r : forallb extend V = true -> one P (V ++ y :: r) = one P (y :: r).
Proof. induction V as [|v V IH]; [reflexivity|]. cbn [forallb app]. rewrite andb_true_iff. intros [E F]. rewrite one_extend by auto. auto. Qed.

(* What a boundary before x, behind L, tells about L; the text behind x is [rev V ++ c :: after]. *)
Definition apart (P Q : Z -> bool) (L : list Z) (x : Z) (right : list Z) : Prop := one Q L && P x && one Q right = false.
Record cut (L : list Z) (x : Z) (right : list Z) : Prop := mkcut {
  cut_ext : extend x = true -> L = [] \/ exists d t, L = d :: t /\ newline d = true;
  cut_1 : apart MidL AHLetter L x right;
  cut_2 : apart (Z.eqb Double_Quote) (Z.eqb Hebrew_Letter) L x right;
  cut_3 : apart MidN (Z.eqb Numeric) L x right;
  cut_ri : x = RI -> Nat.odd (ri_run L) = false }.
Lemma cut_of L x right : wb_boundary false L (x :: right) = true -> cut L x right.
Proof.
  intros B. destruct L as [|a L].
  - constructor; try reflexivity. auto.
  - destruct (newline a) eqn:Na.
    { assert (O : forall P, rejects P -> one P (a :: L) = false) by (intros P R; now apply one_newline).
      constructor; unfold apart; rewrite ?(O _ rejects_AH), ?(O _ (rejects_eq Hebrew_Letter eq_refl)), ?(O _ (rejects_eq Numeric eq_refl)); try reflexivity.
      - intros _. right. eauto.
      - intros _. rewrite ri_newline by auto. reflexivity. }
    destruct (newline x) eqn:Nx.
    { constructor; unfold apart.
      - intros E. rewrite (newline_plain x Nx) in E. discriminate.
      - destruct (newline_cases x Nx) as [->|[->| ->]]; rewrite andb_false_r; reflexivity.
      - destruct (newline_cases x Nx) as [->|[->| ->]]; rewrite andb_false_r; reflexivity.
      - destruct (newline_cases x Nx) as [->|[->| ->]]; rewrite andb_false_r; reflexivity.
      - intros ->. discriminate. }
    destruct (no_rule a L x right B Na Nx) as (E & R1 & R2 & R3 & _ & _ & _ & R4).
    constructor; try assumption.
    + congruence.
    + intros ->. exact R4.
Qed.

Lemma one_forgets P L x right V : rejects P -> cut L x right -> one P (V ++ x :: L) = one P (V ++ [x]).
Proof.
  intros R K. induction V as [|v V IH]; cbn [app].
  - destruct (extend x) eqn:E; [|rewrite !one_plain by auto; reflexivity]. rewrite !one_extend by auto.
    destruct (cut_ext _ _ _ K E) as [->|(d & t & -> & N)]; [reflexivity|]. now apply one_newline.
  - destruct (extend v) eqn:E; [rewrite !one_extend by auto; exact IH|rewrite !one_plain by auto; reflexivity].
Qed.
Lemma two_forgets P Q L x V c after : rejects P -> rejects Q -> (Q c = true -> extend c = false) -> apart P Q L x (rev V ++ c :: after) -> cut L x (rev V ++ c :: after) ->
  two P Q (V ++ x :: L) && Q c = two P Q (V ++ [x]) && Q c.
Proof.
  intros RP R NE A K. destruct (Q c) eqn:Qc; [|now rewrite !andb_false_r]. rewrite !andb_true_r. specialize (NE eq_refl).
  assert (S : forall W Z0, V = Z0 ++ W -> forallb extend Z0 = true -> two P Q (W ++ x :: L) = two P Q (W ++ [x])).
  { induction W as [|w W IH]; intros Z0 E F; cbn [app].
    - rewrite app_nil_r in E. subst Z0. destruct (extend x) eqn:Ex.
      + rewrite !two_extend by auto. destruct (cut_ext _ _ _ K Ex) as [->|(d & t & -> & N)]; [reflexivity|].
        rewrite two_plain by (now apply newline_plain). rewrite (RP d N). reflexivity.
      + rewrite !two_plain by auto. change (one Q []) with false. rewrite andb_false_r. unfold apart in A.
        rewrite one_over in A by (rewrite forallb_forall in *; intros y Hy; apply F; now apply in_rev). rewrite one_plain, Qc, andb_true_r in A by auto.
        rewrite andb_comm. exact A.
    - destruct (extend w) eqn:Ew.
      + rewrite !two_extend by auto. apply (IH (Z0 ++ [w])); [rewrite <- app_assoc; exact E|]. rewrite forallb_app, F. cbn [forallb]. now rewrite Ew.
      + rewrite !two_plain by auto. f_equal. exact (one_forgets Q L x _ W R K). }
  exact (S V [] eq_refl eq_refl).
Qed.
Lemma ri_forgets L x right V : cut L x right -> Nat.odd (ri_run (V ++ x :: L)) = Nat.odd (ri_run (V ++ [x])).
Proof.
  intros K. induction V as [|v V IH]; cbn [app].
  - destruct (extend x) eqn:E.
    + rewrite !ri_extend by auto. destruct (cut_ext _ _ _ K E) as [->|(d & t & -> & N)]; [reflexivity|]. rewrite ri_newline by auto. reflexivity.
    + cbn [ri_run]. rewrite E. destruct (Z.eqb_spec x RI) as [X|]; [|reflexivity]. rewrite !Nat.odd_succ, <- !Nat.negb_odd. rewrite (cut_ri _ _ _ K X). reflexivity.
  - cbn [ri_run]. destruct (extend v); [exact IH|]. destruct (v =? RI); [|reflexivity]. rewrite !Nat.odd_succ, <- !Nat.negb_odd. now rewrite IH.
Qed.

Lemma rejects_MidL : rejects MidL. Proof. intros c N. destruct (newline_cases c N) as [->|[->| ->]]; reflexivity. Qed.
Lemma rejects_MidN : rejects MidN. Proof. intros c N. destruct (newline_cases c N) as [->|[->| ->]]; reflexivity. Qed.
Lemma AH_plain c : AHLetter c = true -> extend c = false.
Proof. unfold AHLetter. rewrite orb_true_iff, !Z.eqb_eq. intros [->| ->]; reflexivity. Qed.

(* behind a boundary nothing depends on what is before it *)
Lemma wb_left L V x c after : wb_boundary false L (x :: rev V ++ c :: after) = true ->
  wb_boundary false ((V ++ [x]) ++ L) (c :: after) = wb_boundary false (V ++ [x]) (c :: after).
Proof.
  intros B. pose proof (cut_of _ _ _ B) as K. rewrite <- app_assoc. cbn [app]. unfold wb_boundary.
  pose proof (fun P R => one_forgets P L x _ V R K) as O.
  pose proof (O _ rejects_AH) as O1. pose proof (O _ (rejects_eq Hebrew_Letter eq_refl)) as O2. pose proof (O _ (rejects_eq Numeric eq_refl)) as O3.
  pose proof (O _ (rejects_eq Katakana eq_refl)) as O4. pose proof (O _ rejects_num) as O5. pose proof (O _ (rejects_eq ExtendNumLet eq_refl)) as O6.
  pose proof (two_forgets _ _ L x V c after rejects_MidL rejects_AH (AH_plain c) (cut_1 _ _ _ K) K) as T1.
  pose proof (two_forgets (Z.eqb Double_Quote) (Z.eqb Hebrew_Letter) L x V c after (rejects_eq Double_Quote eq_refl) (rejects_eq Hebrew_Letter eq_refl)
    ltac:(intros E; apply Z.eqb_eq in E; subst c; reflexivity) (cut_2 _ _ _ K) K) as T2.
  pose proof (two_forgets MidN (Z.eqb Numeric) L x V c after rejects_MidN (rejects_eq Numeric eq_refl)
    ltac:(intros E; apply Z.eqb_eq in E; subst c; reflexivity) (cut_3 _ _ _ K) K) as T3.
  pose proof (ri_forgets L x _ V K) as R. rewrite (Z.eqb_sym Hebrew_Letter c) in T2. rewrite (Z.eqb_sym Numeric c) in T3.
  change (fun m : Z => (m =? MidLetter) || MidNumLetQ m) with MidL. change (fun m : Z => (m =? MidNum) || MidNumLetQ m) with MidN.
  rewrite O1, O2, O3, O4, O5, O6, T1, T2, T3, R. destruct V; reflexivity.
Qed.

(* before a boundary nothing depends on what is behind it *)
Lemma skip_app P r T : one P (r ++ T) = if forallb extend r then one P T else one P r.
Proof.
  induction r as [|y r IH]; [reflexivity|]. cbn [app forallb]. destruct (extend y) eqn:E; cbn [andb].
  - rewrite !one_extend by auto. exact IH.
  - rewrite !one_plain by auto. reflexivity.
Qed.
Lemma one_all_ext P r : forallb extend r = true -> one P r = false.
Proof. induction r as [|y r IH]; [reflexivity|]. cbn [forallb]. rewrite andb_true_iff. intros [E F]. rewrite one_extend by auto. auto. Qed.
Lemma two_over P Q V l : forallb extend V = true -> two P Q (V ++ l) = two P Q l.
Proof. induction V as [|v V IH]; [reflexivity|]. cbn [forallb app]. rewrite andb_true_iff. intros [E F]. rewrite two_extend by auto. auto. Qed.
Lemma wb_right left c after T : T <> [] -> wb_boundary false (rev after ++ c :: left) T = true ->
  wb_boundary false left (c :: after ++ T) = wb_boundary false left (c :: after).
Proof.
  intros N B. destruct T as [|y T]; [congruence|]. destruct (forallb extend after) eqn:F.
  2:{ unfold wb_boundary. destruct left as [|a l]; [reflexivity|]. rewrite !(skip_app _ after), F. reflexivity. }
  assert (Fr : forallb extend (rev after) = true) by (rewrite forallb_forall in *; intros z Hz; apply F; now apply in_rev).
  destruct left as [|a l]; [reflexivity|]. destruct (newline c) eqn:Nc.
  { unfold wb_boundary. rewrite Nc. destruct ((a =? CR) && (c =? LF)), (newline a); reflexivity. }
  (* the rules with a look-ahead *)
  assert (H : forall P Q, (P = MidL /\ Q = AHLetter) \/ (P = Z.eqb Double_Quote /\ Q = Z.eqb Hebrew_Letter) \/ (P = MidN /\ Q = Z.eqb Numeric) ->
    one Q (a :: l) && P c && one Q (y :: T) = false).
  { intros P Q PQ. destruct (P c) eqn:Pc; [|now rewrite andb_false_r]. rewrite andb_true_r. destruct (one Q (a :: l)) eqn:OQ; [|reflexivity].
    assert (RQ : rejects Q) by (destruct PQ as [[-> ->]|[[-> ->]|[-> ->]]]; [exact rejects_AH|now apply rejects_eq|now apply rejects_eq]).
    assert (Ec : extend c = false).
    { destruct PQ as [[-> _]|[[-> _]|[-> _]]]; revert Pc; unfold MidL, MidN, MidNumLetQ; rewrite ?orb_true_iff, ?Z.eqb_eq; [intros [->|[->| ->]]|intros <-|intros [->|[->| ->]]]; reflexivity. }
    assert (Hd : exists h t, rev after ++ c :: a :: l = h :: t /\ newline h = false).
    { destruct (rev after) as [|h t]; [exists c, (a :: l); auto|]. cbn [forallb] in Fr. apply andb_true_iff in Fr. exists h, (t ++ c :: a :: l). split; [reflexivity|].
      destruct (newline h) eqn:X; [|reflexivity]. rewrite (newline_plain h X) in Fr. destruct Fr. discriminate. }
    destruct Hd as (h & t & Eh & Nh). cbn [andb]. destruct (newline y) eqn:Ny; [now apply one_newline|].
    pose proof B as B'. rewrite Eh in B'. destruct (no_rule h t y T B' Nh Ny) as (Ey & _ & _ & _ & R1 & R2 & R3 & _). rewrite <- Eh in R1, R2, R3.
    rewrite one_plain by auto. rewrite two_over in R1, R2, R3 by auto. rewrite two_plain in R1, R2, R3 by auto.
    destruct PQ as [[-> ->]|[[-> ->]|[-> ->]]]; [rewrite Pc, OQ in R1; exact R1|rewrite Pc, OQ in R2; exact R2|rewrite Pc, OQ in R3; exact R3]. }
  pose proof (H MidL AHLetter ltac:(auto)) as H1. pose proof (H (Z.eqb Double_Quote) (Z.eqb Hebrew_Letter) ltac:(auto)) as H2. pose proof (H MidN (Z.eqb Numeric) ltac:(auto 6)) as H3.
  rewrite (Z.eqb_sym Double_Quote c) in H2. unfold wb_boundary.
  change ((c =? MidLetter) || MidNumLetQ c) with (MidL c). change ((c =? MidNum) || MidNumLetQ c) with (MidN c).
  rewrite !(skip_app _ after), F, !(one_all_ext _ after F), H1, H2, H3, !andb_false_r. reflexivity.
Qed.

Lemma word_forgets cls t1 t2 : t1 <> [] -> t2 <> [] -> wb_break false cls (rev t1) t2 = true -> forgets (wb_break false cls) t1 t2.
Proof.
  intros N1 N B. split.
  - intros l r _ Nr E. destruct r as [|c r]; [congruence|]. subst t1. unfold wb_break in *. rewrite rev_app_distr in B. cbn [rev] in B.
    rewrite !map_app in B. cbn [map] in B. rewrite <- app_assoc in B. cbn [app map] in *. rewrite map_app.
    apply wb_right; [destruct t2; [congruence|discriminate]|]. rewrite <- map_rev. exact B.
  - intros u r Nu Nr E. destruct r as [|c r]; [congruence|]. unfold wb_break in *. rewrite map_app. destruct u as [|x u]; [congruence|].
    cbn [rev]. rewrite map_app. cbn [map]. apply wb_left. subst t2. cbn [app map] in B. rewrite map_app in B. rewrite <- map_rev, rev_involutive. exact B.
Qed.
Lemma word_resume cls text a b : segmentation (wb_break false cls) text = a ++ b ->
  segmentation (wb_break false cls) (List.concat a) = a /\ segmentation (wb_break false cls) (List.concat b) = b.
Proof. intros E. apply (segmentation_parts _ _ _ _ E). intros t1 t2 _ N1 N B. now apply word_forgets. Qed.
Lemma plain_prefix cls : forall l r, plain_quotes cls (l ++ r) = true -> plain_quotes cls l = true.
Proof.
  induction l as [|x l IH]; intros r H; [reflexivity|]. cbn [app plain_quotes] in *. apply andb_true_iff in H. destruct H as [H1 H2].
  rewrite (IH r H2), andb_true_r. destruct l as [|y l]; [destruct (cls x =? Double_Quote); reflexivity|exact H1].
Qed.
