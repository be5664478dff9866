(* SetupProofs.v -- set-up of class tables by any number of goroutines. *)
From Coq Require Import List ZArith Lia Bool Arith.
From Verif Require Import Base Setup.
From Verif Require Grapheme Words Line WidthSpec.
Import ListNotations.
Open Scope Z_scope.

Lemma pkg_eqb_spec p q : reflect (p = q) (pkg_eqb p q).
Proof. destruct p, q; constructor; congruence. Qed.
Lemma pkg_eqb_refl p : pkg_eqb p p = true.
Proof. now destruct p. Qed.
Lemma set1_eq {A} (f : pkg -> A) p a : set1 f p a p = a.
Proof. unfold set1. now rewrite pkg_eqb_refl. Qed.
Lemma set1_neq {A} (f : pkg -> A) p a q : q <> p -> set1 f p a q = f q.
Proof. unfold set1. destruct (pkg_eqb_spec q p); congruence. Qed.

Section Tables.
Context (member : pkg -> Z -> Z -> bool) (orderL : list Z).
Hypothesis order_all : forall c, In c Line.all_classes -> In c orderL.
Notation order := (order orderL). Notation body := (body orderL). Notation tstep := (tstep member orderL). Notation sstep := (sstep member orderL). Notation run := (run member orderL).

Lemma in_order p c : In c (ids p) -> In c (order p).
Proof. destruct p; try exact (order_all c); cbn [ids Setup.order In]; tauto. Qed.

(* ---- Specification ---- *)
(* what a look-up finds in complete tables *)
Definition found (p : pkg) (r : Z) (cs : list Z) (pic : bool) : Z :=
  match find (fun c => member p c r) cs with Some c => c | None => if pic && member PE 5 r then pictographic p else none p end.
(* the classes that code finds in complete tables *)
Definition says (i : instr) : list Z :=
  match i with
  | Look p r cs pic => [found p r cs pic]
  | Pict p r => [if member PE 5 r then pictographic p else none p]
  | Say z => [z]
  | _ => []
  end.
Definition all_says (code : list instr) : list Z := flat_map says code.
Definition isnil (cs : list Z) : bool := match cs with [] => true | _ => false end.
(* code finds all tables it needs, if it sets up what it needs; D: what is set up before *)
Fixpoint cready (D : pkg -> bool) (code : list instr) : bool :=
  match code with
  | [] => true
  | Enter p :: c => cready (fun q => pkg_eqb q p || D q) c
  | Look p r cs pic :: c =>
      (isnil cs || D p) && (negb pic || match find (fun c => member p c r) cs with Some _ => true | None => D PE end) && cready D c
  | Pict _ _ :: c => D PE && cready D c
  | Say _ :: c | IsNil _ :: c => cready D c
  | _ => false
  end.
Lemma cready_mono code : forall D E, (forall p, D p = true -> E p = true) -> cready D code = true -> cready E code = true.
Proof.
  induction code as [|i c IH]; intros D E M H; [reflexivity|]. destruct i; cbn [cready] in *; try discriminate; try (now apply (IH D)).
  - apply (IH _ _) with (2 := H). intros q Q. apply orb_true_iff in Q. destruct Q as [->|Q]; [reflexivity|]. rewrite (M _ Q). apply orb_true_r.
  - apply andb_true_iff in H. destruct H as [H Hc]. apply andb_true_iff in H. destruct H as [Hp Hq]. rewrite (IH _ _ M Hc), andb_true_r. apply andb_true_iff. split.
    + destruct (isnil cs); [reflexivity|]. now apply M.
    + destruct (negb pic); [reflexivity|]. cbn [orb] in *. destruct (find _ cs); [reflexivity|]. now apply M.
  - apply andb_true_iff in H. destruct H as [Hp Hc]. rewrite (M _ Hp), (IH _ _ M Hc). reflexivity.
Qed.
Lemma cready_ext code D E : (forall p, D p = E p) -> cready D code = cready E code.
Proof.
  intros X. destruct (cready D code) eqn:A, (cready E code) eqn:B; try reflexivity; exfalso.
  - rewrite (cready_mono code D E) in B; [discriminate| |exact A]. intros p. now rewrite X.
  - rewrite (cready_mono code E D) in A; [discriminate| |exact B]. intros p. now rewrite X.
Qed.

(* ---- the tables ---- *)
Definition full (m : mem) (p : pkg) : Prop := made m p = true /\ (forall c, In c (ids p) -> slot m p c = true) /\ (forall c, In c (ids p) -> var m p c = true).
Definition executed (m : mem) (p : pkg) (past : list instr) : Prop :=
  (past = [] -> made m p = false) /\ (In (Make p) past -> made m p = true) /\ (forall c, In (SetVar p c) past -> var m p c = true) /\ (forall c, In (SetSlot p c) past -> slot m p c = true).
Lemma executed_full m p : executed m p (body p) -> full m p.
Proof.
  intros (_ & M & V & S). split; [apply M; left; reflexivity|]. split; intros c C; [apply S|apply V]; right; apply in_flat_map; exists c; (split; [now apply in_order|cbn; auto]).
Qed.
(* code inside of the function that sets up a package *)
Definition inside (t : nat) (m : mem) (inner : list instr) (o : option pkg) : Prop :=
  match o with
  | None => inner = [] /\ forall p, once m p <> Busy t
  | Some p => once m p = Busy t /\ (forall q, q <> p -> once m q <> Busy t) /\ exists past left, past ++ left = body p /\ inner = left ++ [Leave p] /\ executed m p past
  end.
Definition have (m : mem) (o : option pkg) (p : pkg) : bool :=
  match once m p with Done => true | _ => match o with Some q => pkg_eqb p q | None => false end end.
Definition good (t : nat) (m : mem) (th : thread) (expected : list Z) : Prop :=
  dead th = false /\ exists inner plain o, code th = inner ++ plain /\ inside t m inner o /\ cready (have m o) plain = true /\ said th ++ all_says plain = expected.
Definition good_mem (n : nat) (m : mem) : Prop :=
  (forall p, once m p = Done -> full m p) /\ (forall p, once m p = Idle -> made m p = false) /\ (forall p t, once m p = Busy t -> (t < n)%nat).

Lemma in_body i p : In i (body p) -> i = Make p \/ (exists c, i = SetVar p c) \/ (exists c, i = SetSlot p c).
Proof. cbn [Setup.body In]. intros [<-|I]; [auto|]. apply in_flat_map in I. destruct I as (c & _ & [<-|[<-|[]]]); eauto. Qed.
Lemma make_first past left p : past ++ Make p :: left = body p -> past = [].
Proof.
  destruct past as [|i past]; [reflexivity|]. intros E. exfalso. unfold Setup.body in E. cbn [app] in E. injection E as _ E.
  assert (I : In (Make p) (flat_map (fun c => [SetVar p c; SetSlot p c]) (order p))) by (rewrite <- E; apply in_or_app; right; left; reflexivity).
  apply in_flat_map in I. destruct I as (c & _ & [I|[I|[]]]); discriminate.
Qed.
Lemma first_make past i left p : past ++ i :: left = body p -> i <> Make p -> In (Make p) past.
Proof. destruct past as [|j past]; unfold Setup.body; cbn [app]; intros E N; injection E as -> _; [congruence|left; reflexivity]. Qed.

(* the memory outside of package p stays the same *)
Definition same_but (p : pkg) (m m' : mem) : Prop := forall q, q <> p -> once m' q = once m q /\ made m' q = made m q /\ (forall c, slot m' q c = slot m q c) /\ (forall c, var m' q c = var m q c).
Lemma same_executed p q m m' past : same_but p m m' -> q <> p -> executed m q past -> executed m' q past.
Proof. intros SB N (A & B & C & D). destruct (SB q N) as (_ & M & S & V). unfold executed. rewrite M. split; [exact A|]. split; [exact B|]. split; intros c I; [rewrite V; now apply C|rewrite S; now apply D]. Qed.
Lemma same_full p q m m' : same_but p m m' -> q <> p -> full m q -> full m' q.
Proof. intros SB N (A & B & C). destruct (SB q N) as (_ & M & S & V). unfold full. rewrite M. split; [exact A|]. split; intros c I; [rewrite S; now apply B|rewrite V; now apply C]. Qed.
Lemma same_refl p m : same_but p m m.
Proof. intros q _. repeat split. Qed.
(* a step of goroutine t that concerns package p, seen from another goroutine *)
Lemma other_good t u p m m' th expected : t <> u -> same_but p m m' -> once m p <> Done -> once m p <> Busy u -> (forall v, once m' p = Busy v -> v = t) -> good u m th expected -> good u m' th expected.
Proof.
  intros N SB D NB OT (Dd & inner & plain & o & E & I & R & S). split; [exact Dd|]. exists inner, plain, o. split; [exact E|].
  assert (OQ : forall q, once m' q = Busy u -> once m q = Busy u).
  { intros q B. destruct (pkg_eqb_spec q p) as [->|Q]; [apply OT in B; congruence|]. destruct (SB q Q) as (H & _). congruence. }
  split; [|split; [|exact S]].
  - destruct o as [q|]; cbn [inside] in *.
    + destruct I as (B & U & past & left & EB & EI & X). assert (Q : q <> p) by (intros ->; contradiction). split; [destruct (SB q Q) as (H & _); congruence|]. split; [intros q' Q' B'; apply (U q' Q'), OQ, B'|].
      exists past, left. split; [exact EB|]. split; [exact EI|]. now apply (same_executed p q m m').
    + destruct I as (-> & U). split; [reflexivity|]. intros q B. apply (U q), OQ, B.
  - apply (cready_mono plain (have m o)); [|exact R]. intros q. unfold have. destruct (pkg_eqb_spec q p) as [->|Q].
    + destruct (once m p) eqn:OP; [| |contradiction]; destruct (once m' p); auto.
    + destruct (SB q Q) as (-> & _). auto.
Qed.

(* what a step does to the memory *)
Definition effect (t : nat) (m m' : mem) : Prop :=
  m' = m \/ exists p, same_but p m m' /\ once m p <> Done /\ (forall u, u <> t -> once m p <> Busy u) /\ (forall v, once m' p = Busy v -> v = t).
Lemma in_snoc {A} (x : A) l y : In x (l ++ [y]) <-> In x l \/ x = y.
Proof. rewrite in_app_iff. cbn. intuition congruence. Qed.
Lemma busy_eff t m m' p : once m p = Busy t -> once m' p = once m p -> same_but p m m' -> effect t m m'.
Proof. intros B E SB. right. exists p. split; [exact SB|]. rewrite E, B. split; [discriminate|]. split; congruence. Qed.
Lemma good_mem_same n t m m' p : once m p = Busy t -> once m' p = Busy t -> same_but p m m' -> good_mem n m -> good_mem n m'.
Proof.
  intros B B' SB (G1 & G2 & G3). split; [|split].
  - intros q D. destruct (pkg_eqb_spec q p) as [->|Q]; [congruence|]. destruct (SB q Q) as (O & _). apply (same_full p q m m' SB Q), G1. congruence.
  - intros q D. destruct (pkg_eqb_spec q p) as [->|Q]; [congruence|]. destruct (SB q Q) as (O & M & _). rewrite M. apply G2. congruence.
  - intros q u D. destruct (pkg_eqb_spec q p) as [->|Q]; [apply (G3 p u); congruence|]. destruct (SB q Q) as (O & _). apply (G3 q u). congruence.
Qed.
Lemma inside_step t m th e m' th' p past left plain n :
  dead th = false -> once m p = Busy t -> (forall q, q <> p -> once m q <> Busy t) -> past ++ left = body p -> code th = (left ++ [Leave p]) ++ plain -> executed m p past ->
  cready (have m (Some p)) plain = true -> said th ++ all_says plain = e -> good_mem n m -> tstep t m th = Some (m', th') ->
  good t m' th' e /\ good_mem n m' /\ effect t m m'.
Proof.
  intros Dd B U EB EC X R S GM T. unfold Setup.tstep in T. rewrite Dd, EC in T. destruct left as [|i left]; cbn [app] in T.
  - (* the function ends *)
    injection T as <- <-. rewrite app_nil_r in EB. subst past. assert (F : full m p) by now apply executed_full.
    set (m' := mkmem (set1 (once m) p Done) (made m) (slot m) (var m)).
    assert (SB : same_but p m m') by (intros q Q; cbn [m' once made slot var]; rewrite set1_neq by exact Q; repeat split).
    assert (OP : once m' p = Done) by (cbn [m' once]; apply set1_eq). split; [|split].
    + split; [reflexivity|]. exists [], plain, None. split; [reflexivity|]. split; [split; [reflexivity|]|].
      * intros q Q. destruct (pkg_eqb_spec q p) as [->|N]; [congruence|]. apply (U q N). destruct (SB q N) as (H & _). congruence.
      * split; [|exact S]. apply (cready_mono plain (have m (Some p))); [|exact R]. intros q. unfold have. destruct (pkg_eqb_spec q p) as [->|N]; [now rewrite OP|]. destruct (SB q N) as (-> & _). destruct (once m q); auto.
    + destruct GM as (G1 & G2 & G3). split; [|split].
      * intros q D. destruct (pkg_eqb_spec q p) as [->|Q]; [exact F|]. destruct (SB q Q) as (O & _). apply (same_full p q m m' SB Q), G1. congruence.
      * intros q D. destruct (pkg_eqb_spec q p) as [->|Q]; [congruence|]. destruct (SB q Q) as (O & M & _). rewrite M. apply G2. congruence.
      * intros q u D. destruct (pkg_eqb_spec q p) as [->|Q]; [congruence|]. destruct (SB q Q) as (O & _). apply (G3 q u). congruence.
    + right. exists p. split; [exact SB|]. rewrite B, OP. split; [discriminate|]. split; congruence.
  - (* an instruction of the function *)
    assert (IB : In i (body p)) by (rewrite <- EB; apply in_or_app; right; left; reflexivity).
    assert (K : forall m', once m' p = once m p -> same_but p m m' -> executed m' p (past ++ [i]) -> good t m' (mkth ((left ++ [Leave p]) ++ plain) (said th) false) e /\ good_mem n m' /\ effect t m m').
    { intros m2 OP SB X2. split; [|split; [apply (good_mem_same n t m m2 p); [exact B|congruence|exact SB|exact GM]|apply (busy_eff t m m2 p); auto]].
      split; [reflexivity|]. exists (left ++ [Leave p]), plain, (Some p). split; [reflexivity|]. split.
      - split; [congruence|]. split; [intros q Q; destruct (SB q Q) as (-> & _); now apply U|]. exists (past ++ [i]), left. rewrite <- app_assoc. auto.
      - split; [|exact S]. apply (cready_mono plain (have m (Some p))); [|exact R]. intros q. unfold have. destruct (pkg_eqb_spec q p) as [->|N]; [now rewrite OP|]. destruct (SB q N) as (-> & _). auto. }
    destruct X as (X0 & X1 & X2 & X3). destruct (in_body i p IB) as [->|[[c ->]|[c ->]]].
    + injection T as <- <-. apply make_first in EB as EP. subst past. apply K.
      * reflexivity.
      * intros q Q. cbn [once made slot var]. rewrite !set1_neq by exact Q. repeat split.
      * unfold executed. cbn [app once made slot var]. rewrite set1_eq. split; [discriminate|]. split; [reflexivity|]. split; intros c [I|[]]; discriminate.
    + injection T as <- <-. pose proof (first_make past _ left p EB ltac:(discriminate)) as MK. apply K.
      * reflexivity.
      * intros q Q. cbn [once made slot var]. repeat split. intros d. unfold set2. destruct (pkg_eqb_spec q p); [contradiction|reflexivity].
      * unfold executed. cbn [once made slot var]. split; [now destruct past|]. split; [intros _; now apply X1|]. split.
        -- intros d I. apply in_snoc in I. unfold set2. rewrite pkg_eqb_refl. cbn [andb]. destruct (Z.eqb_spec d c) as [->|N]; [reflexivity|]. apply X2. destruct I as [I|I]; [exact I|congruence].
        -- intros d I. apply in_snoc in I. apply X3. destruct I as [I|I]; [exact I|discriminate].
    + pose proof (first_make past _ left p EB ltac:(discriminate)) as MK. rewrite (X1 MK) in T. injection T as <- <-. apply K.
      * reflexivity.
      * intros q Q. cbn [once made slot var]. repeat split. intros d. unfold set2. destruct (pkg_eqb_spec q p); [contradiction|reflexivity].
      * unfold executed. cbn [once made slot var]. split; [now destruct past|]. split; [intros _; now apply X1|]. split.
        -- intros d I. apply in_snoc in I. apply X2. destruct I as [I|I]; [exact I|discriminate].
        -- intros d I. apply in_snoc in I. unfold set2. rewrite pkg_eqb_refl. cbn [andb]. destruct (Z.eqb_spec d c) as [->|N]; [reflexivity|]. apply X3. destruct I as [I|I]; [exact I|congruence].
Qed.
Lemma have_none m p : have m None p = true -> once m p = Done.
Proof. unfold have. destruct (once m p); congruence. Qed.
(* loops stay within the classes *)
Definition within (code : list instr) : Prop := forall p r cs pic, In (Look p r cs pic) code -> forall c, In c cs -> In c (ids p).
Lemma outside_step t m th e m' th' n :
  (t < n)%nat -> within (code th) -> dead th = false -> (forall p, once m p <> Busy t) -> cready (have m None) (code th) = true -> said th ++ all_says (code th) = e -> good_mem n m -> tstep t m th = Some (m', th') ->
  good t m' th' e /\ good_mem n m' /\ effect t m m'.
Proof.
  intros Lt W Dd U R S GM T. unfold Setup.tstep in T. rewrite Dd in T. destruct (code th) as [|i rest] eqn:EC; [discriminate|].
  assert (K : forall code' said', cready (have m None) code' = true -> said' ++ all_says code' = e -> Some (m, mkth code' said' false) = Some (m', th') -> good t m' th' e /\ good_mem n m' /\ effect t m m').
  { intros code' said' R' S' E. injection E as <- <-. split; [|split; [exact GM|left; reflexivity]]. split; [reflexivity|]. exists [], code', None. repeat split; auto. }
  assert (SAY : forall z, says i = [z] -> cready (have m None) rest = true -> Some (m, mkth rest (said th ++ [z]) false) = Some (m', th') -> good t m' th' e /\ good_mem n m' /\ effect t m m').
  { intros z E R' H. apply (K rest (said th ++ [z])); auto. rewrite <- S, <- app_assoc. unfold all_says. cbn [flat_map]. now rewrite E. }
  destruct i; cbn [cready] in R; try discriminate.
  - (* Enter *) destruct (once m p) eqn:O; [|discriminate|].
    + injection T as <- <-. set (m' := mkmem (set1 (once m) p (Busy t)) (made m) (slot m) (var m)).
      assert (SB : same_but p m m') by (intros q Q; cbn [m' once made slot var]; rewrite set1_neq by exact Q; repeat split).
      assert (OP : once m' p = Busy t) by (cbn [m' once]; apply set1_eq). split; [|split].
      * split; [reflexivity|]. exists (body p ++ [Leave p]), rest, (Some p). split; [now rewrite <- app_assoc|]. split.
        -- split; [exact OP|]. split; [intros q Q; destruct (SB q Q) as (-> & _); apply U|]. exists [], (body p). split; [reflexivity|]. split; [reflexivity|]. destruct GM as (_ & G2 & _). unfold executed. split; [intros _; exact (G2 p O)|]. split; [intros []|]. split; intros c [].
        -- split; [|exact S]. apply (cready_mono rest (fun q => pkg_eqb q p || have m None q)); [|exact R]. intros q. destruct (pkg_eqb_spec q p) as [->|N]; unfold have; [rewrite OP, pkg_eqb_refl; reflexivity|]. cbn [orb]. destruct (SB q N) as (-> & _). destruct (once m q); congruence.
      * destruct GM as (G1 & G2 & G3). split; [|split].
        -- intros q D. destruct (pkg_eqb_spec q p) as [->|Q]; [congruence|]. destruct (SB q Q) as (O' & _). apply (same_full p q m m' SB Q), G1. congruence.
        -- intros q D. destruct (pkg_eqb_spec q p) as [->|Q]; [congruence|]. destruct (SB q Q) as (O' & M & _). rewrite M. apply G2. congruence.
        -- intros q u D. destruct (pkg_eqb_spec q p) as [->|Q]; [congruence|]. destruct (SB q Q) as (O' & _). apply (G3 q u). congruence.
      * right. exists p. split; [exact SB|]. rewrite O, OP. split; [discriminate|]. split; [discriminate|congruence].
    + apply (K rest (said th)); auto. apply (cready_mono rest (fun q => pkg_eqb q p || have m None q)); [|exact R]. intros q. destruct (pkg_eqb_spec q p) as [->|N]; [unfold have; now rewrite O|auto].
  - (* IsNil *) apply (K rest (said th)); auto.
  - (* Look *) apply andb_true_iff in R. destruct R as [R Rc]. apply andb_true_iff in R. destruct R as [Rp Rq]. destruct cs as [|c cs].
    + destruct pic.
      * apply (K (Pict p r :: rest) (said th)); auto. cbn [cready]. cbn in Rq. rewrite Rq, Rc. reflexivity.
      * apply (SAY (none p)); auto.
    + cbn [isnil orb] in Rp. pose proof (have_none m p Rp) as D. destruct GM as (G1 & GM'). destruct (G1 p D) as (F1 & F2 & F3). rewrite F1, F2 in T; [|apply (W p r (c :: cs) pic); left; reflexivity]. cbn [andb] in T.
      destruct (member p c r) eqn:M.
      * apply (SAY c); auto. cbn [says]. unfold found. cbn [find]. now rewrite M.
      * apply (K (Look p r cs pic :: rest) (said th)); [| |exact T].
        -- cbn [cready]. rewrite Rp, orb_true_r, Rc, andb_true_r. cbn [find] in Rq. rewrite M in Rq. exact Rq.
        -- rewrite <- S. unfold all_says. cbn [flat_map says]. unfold found. cbn [find]. now rewrite M.
  - (* Pict *) apply andb_true_iff in R. destruct R as [Rp Rc]. pose proof (have_none m PE Rp) as D. destruct (proj1 GM PE D) as (_ & _ & F3). rewrite F3 in T by (cbn; tauto). apply (SAY (if member PE 5 r then pictographic p else none p)); auto.
  - (* Say *) apply (SAY z); auto.
Qed.

(* ---- all goroutines ---- *)
Lemma put_length t th ths : length (put t th ths) = length ths.
Proof. revert t. induction ths as [|x r IH]; intros [|t]; cbn [put length]; auto. Qed.
Lemma put_same t th ths : (t < length ths)%nat -> nth_error (put t th ths) t = Some th.
Proof. revert t. induction ths as [|x r IH]; intros [|t] H; cbn [put nth_error length] in *; try lia; [reflexivity|]. apply IH. lia. Qed.
Lemma put_other t u th ths : t <> u -> nth_error (put t th ths) u = nth_error ths u.
Proof. revert t u. induction ths as [|x r IH]; intros [|t] [|u] N; cbn [put nth_error]; try reflexivity; try congruence. apply IH. congruence. Qed.
Lemma within_cons i c : within (i :: c) -> within c.
Proof. intros W p r cs pic I. apply (W p r cs pic). now right. Qed.
Lemma within_app a c : within a -> within c -> within (a ++ c).
Proof. intros A C p r cs pic I. apply in_app_or in I. destruct I; [now apply (A p r cs pic)|now apply (C p r cs pic)]. Qed.
Lemma within_body p : within (body p).
Proof. intros q r cs pic I. apply in_body in I. destruct I as [I|[[c I]|[c I]]]; discriminate. Qed.
Lemma within_one i : (forall p r cs pic, i <> Look p r cs pic) -> within [i].
Proof. intros N p r cs pic [I|[]]. now apply N in I. Qed.
Lemma within_step t m th m' th' : within (code th) -> tstep t m th = Some (m', th') -> within (code th').
Proof.
  intros W T. unfold Setup.tstep in T. destruct (dead th); [discriminate|]. destruct (code th) as [|i rest]; [discriminate|]. pose proof (within_cons i rest W) as Wr.
  destruct i; try (injection T as <- <-; exact Wr).
  - destruct (once m p); [|discriminate|injection T as <- <-; exact Wr]. injection T as <- <-. cbn [code]. apply (within_app (body p) (Leave p :: rest)); [apply within_body|]. apply (within_app [Leave p] rest); [apply within_one; discriminate|exact Wr].
  - destruct (made m p); injection T as <- <-; exact Wr.
  - destruct cs as [|c cs].
    + destruct pic; injection T as <- <-; [|exact Wr]. cbn [code]. apply (within_app [Pict p r] rest); [apply within_one; discriminate|exact Wr].
    + destruct (made m p); [|injection T as <- <-; exact Wr]. destruct (slot m p c && member p c r); injection T as <- <-; [exact Wr|]. cbn [code]. intros q r' cs' pic' [I|I]; [|now apply (Wr q r' cs' pic')].
      injection I as <- <- <- <-. intros d D. apply (W p r (c :: cs) pic); [left; reflexivity|right; exact D].
  - destruct (var m PE 5); injection T as <- <-; exact Wr.
Qed.
Definition sinv (es : list (list Z)) (s : sys) : Prop :=
  good_mem (length es) (fst s) /\ length (snd s) = length es /\
  forall t th, nth_error (snd s) t = Some th -> within (code th) /\ good t (fst s) th (nth t es []).
Lemma sinv_step es s t s' : sinv es s -> sstep t s = Some s' -> sinv es s'.
Proof.
  intros (GM & L & G) T. unfold Setup.sstep in T. destruct s as [m ths]. cbn [fst snd] in *. destruct (nth_error ths t) as [th|] eqn:N; [|discriminate].
  destruct (tstep t m th) as [[m' th']|] eqn:TS; [|discriminate]. injection T as <-. destruct (G t th N) as (W & GT).
  assert (LT : (t < length es)%nat) by (rewrite <- L; apply nth_error_Some; congruence).
  assert (ST : good t m' th' (nth t es []) /\ good_mem (length es) m' /\ effect t m m').
  { pose proof GT as (Dd & inner & plain & o & EC & I & R & S). destruct o as [p|]; cbn [inside] in I.
    - destruct I as (B & U & past & left & EB & EI & X). apply (inside_step t m th _ m' th' p past left plain (length es)); auto. now rewrite EC, EI.
    - destruct I as (EI & U). subst inner. cbn [app] in EC. apply (outside_step t m th _ m' th' (length es)); auto; now rewrite EC. }
  destruct ST as (GT' & GM' & EF). split; [exact GM'|]. cbn [fst snd]. split; [now rewrite put_length|]. intros u thu NU. destruct (Nat.eq_dec t u) as [<-|NE].
  - rewrite put_same in NU by lia. injection NU as <-. split; [now apply (within_step t m th m')|exact GT'].
  - rewrite put_other in NU by exact NE. destruct (G u thu NU) as (Wu & Gu). split; [exact Wu|]. destruct EF as [->|(p & SB & ND & NB & OT)]; [exact Gu|].
    apply (other_good t u p m m'); auto.
Qed.
Lemma sinv_run es sched : forall s s', sinv es s -> run sched s = Some s' -> sinv es s'.
Proof.
  induction sched as [|t r IH]; intros s s' I H; [injection H as <-; exact I|]. cbn [Setup.run] in H. destruct (sstep t s) as [s1|] eqn:E; [|discriminate]. apply (IH s1); [|exact H]. now apply (sinv_step es s t).
Qed.
(* a goroutine inside of a function can always go on *)
Lemma inside_goes t m th p past left plain : dead th = false -> once m p = Busy t -> past ++ left = body p -> executed m p past -> code th = (left ++ [Leave p]) ++ plain -> exists x, tstep t m th = Some x.
Proof.
  intros Dd B EB (_ & X1 & _ & _) EC. unfold Setup.tstep. rewrite Dd, EC. destruct left as [|i left]; cbn [app]; [eauto|].
  assert (IB : In i (body p)) by (rewrite <- EB; apply in_or_app; right; left; reflexivity). destruct (in_body i p IB) as [->|[[c ->]|[c ->]]]; eauto. destruct (made m p); eauto.
Qed.
Lemma progress es s : sinv es s -> (forall th, In th (snd s) -> code th = []) \/ exists t s', sstep t s = Some s'.
Proof.
  intros (GM & L & G). destruct s as [m ths]. cbn [fst snd] in *. destruct (existsb (fun th => negb (match code th with [] => true | _ => false end)) ths) eqn:E.
  - right. apply existsb_exists in E. destruct E as (th & I & C). apply In_nth_error in I. destruct I as (t & N). destruct (G t th N) as (W & Dd & GT).
    destruct (tstep t m th) as [[m' th']|] eqn:T; [exists t; eexists; unfold Setup.sstep; cbn [fst snd]; rewrite N, T; reflexivity|].
    (* it waits *)
    assert (B : exists p u, once m p = Busy u).
    { unfold Setup.tstep in T. rewrite Dd in T. destruct (code th) as [|i rest]; [discriminate C|]. destruct i; try discriminate.
      - destruct (once m p) eqn:O; try discriminate. eauto.
      - destruct (made m p); discriminate.
      - destruct cs; [destruct pic; discriminate|]. destruct (made m p); [|discriminate]. destruct (slot m p z && member p z r); discriminate.
      - destruct (var m PE 5); discriminate. }
    destruct B as (p & u & B). destruct GM as (_ & _ & G3). specialize (G3 p u B). destruct (nth_error ths u) as [thu|] eqn:NU; [|apply nth_error_None in NU; lia].
    destruct (G u thu NU) as (_ & Du & inner & plain & o & EC & I & _). destruct o as [q|]; cbn [inside] in I; [|destruct I as (_ & U); now apply U in B].
    destruct I as (Bq & U & past & left & EB & EI & X). rewrite EI in EC. destruct (inside_goes u m thu q past left plain Du Bq EB X EC) as ([m' thu'] & TU). exists u. eexists. unfold Setup.sstep. cbn [fst snd]. rewrite NU, TU. reflexivity.
  - left. intros th I. destruct (code th) eqn:C; [reflexivity|]. exfalso. assert (H : existsb (fun th => negb (match code th with [] => true | _ => false end)) ths = true) by (apply existsb_exists; exists th; rewrite C; auto). congruence.
Qed.
(* the number of steps is bounded *)
Definition weight (i : instr) : nat := match i with Enter p => (length (body p) + 2)%nat | Look _ _ cs _ => (length cs + 2)%nat | _ => 1%nat end.
Definition work (c : list instr) : nat := list_sum (map weight c).
Lemma work_app a c : work (a ++ c) = (work a + work c)%nat.
Proof. unfold work. now rewrite map_app, list_sum_app. Qed.
Lemma work_cons i c : work (i :: c) = (weight i + work c)%nat.
Proof. reflexivity. Qed.
Lemma weight_pos i : (1 <= weight i)%nat.
Proof. destruct i; cbn [weight]; lia. Qed.
Lemma work_body p : work (body p) = length (body p).
Proof. unfold Setup.body. rewrite work_cons. cbn [weight length]. f_equal. induction (order p) as [|c l IH]; [reflexivity|]. cbn [flat_map app length]. rewrite !work_cons. cbn [weight]. lia. Qed.
Lemma work_step t m th m' th' : tstep t m th = Some (m', th') -> (work (code th') < work (code th))%nat.
Proof.
  intros T. unfold Setup.tstep in T. destruct (dead th); [discriminate|]. destruct (code th) as [|i rest]; [discriminate|]. rewrite work_cons. pose proof (weight_pos i).
  destruct i; try (injection T as <- <-; cbn [code]; lia).
  - destruct (once m p); [|discriminate|injection T as <- <-; cbn [code]; lia]. assert (E : code th' = body p ++ Leave p :: rest) by (injection T as _ <-; reflexivity). rewrite E, work_app, work_body, work_cons. cbn [weight]. lia.
  - destruct (made m p); injection T as <- <-; cbn [code]; lia.
  - destruct cs as [|c cs]; [destruct pic; injection T as <- <-; cbn [code]; rewrite ?work_cons; cbn [weight length]; lia|]. destruct (made m p); [|injection T as <- <-; cbn [code]; lia]. destruct (slot m p c && member p c r); injection T as <- <-; cbn [code]; rewrite ?work_cons; cbn [weight length]; lia.
  - destruct (var m PE 5); injection T as <- <-; cbn [code]; lia.
Qed.
Definition total (s : sys) : nat := list_sum (map (fun th => work (code th)) (snd s)).
Lemma total_put t th' ths th : nth_error ths t = Some th -> (work (code th') < work (code th))%nat -> (list_sum (map (fun th => work (code th)) (put t th' ths)) < list_sum (map (fun th => work (code th)) ths))%nat.
Proof. revert t. induction ths as [|x r IH]; intros [|t] N L; cbn [nth_error] in N; try discriminate; [injection N as ->|]; cbn [put map list_sum fold_right]; [lia|]. specialize (IH t N L). unfold list_sum in IH. lia. Qed.
Lemma total_run sched : forall s s', run sched s = Some s' -> (length sched + total s' <= total s)%nat.
Proof.
  induction sched as [|t r IH]; intros s s' H; [injection H as <-; reflexivity|]. cbn [Setup.run] in H. destruct (sstep t s) as [s1|] eqn:E; [|discriminate]. apply IH in H. cbn [length].
  unfold Setup.sstep in E. destruct (nth_error (snd s) t) as [th|] eqn:N; [|discriminate]. destruct (tstep t (fst s) th) as [[m' th']|] eqn:T; [|discriminate]. injection E as <-. apply work_step in T. pose proof (total_put t th' (snd s) th N T). unfold total in *. cbn [snd] in *. lia.
Qed.

(* ---- races ---- *)
Definition next (s : sys) (t : nat) (i : instr) : Prop := exists th rest, nth_error (snd s) t = Some th /\ code th = i :: rest.
(* a goroutine that writes to package p is inside of its function *)
Definition concerns (p : pkg) (l : loc) : Prop := match l with LMade q | LSlot q _ | LVar q _ => q = p end.
Lemma next_cases es s t i : sinv es s -> next s t i ->
  (exists p past left, once (fst s) p = Busy t /\ past ++ i :: left = body p /\ executed (fst s) p past) \/ (writes i = [] /\ forall p l, In l (reads i) -> concerns p l -> once (fst s) p = Done \/ i = IsNil p).
Proof.
  intros (GM & L & G) (th & rest & N & EC). destruct (G t th N) as (W & Dd & inner & plain & o & EC' & I & R & S). destruct o as [p|]; cbn [inside] in I.
  - destruct I as (B & U & past & left & EB & EI & X). rewrite EI in EC'. destruct left as [|j left]; cbn [app] in EC'; rewrite EC in EC'; injection EC' as -> _.
    + right. split; [reflexivity|]. intros p' l [].
    + left. exists p, past, left. auto.
  - right. destruct I as (-> & U). cbn [app] in EC'. rewrite EC in EC'. subst plain. destruct i; cbn [cready] in R; try discriminate; (split; [reflexivity|]); cbn [reads]; intros p' l IL C; try contradiction.
    + destruct IL as [<-|[]]. cbn in C. subst. auto.
    + destruct cs as [|c cs]; [contradiction|]. apply andb_true_iff in R. destruct R as [R _]. apply andb_true_iff in R. destruct R as [R _]. cbn [isnil orb] in R. apply have_none in R. left. destruct IL as [<-|[<-|[]]]; cbn in C; congruence.
    + destruct IL as [<-|[]]. cbn in C. subst. apply andb_true_iff in R. destruct R as [R _]. apply have_none in R. auto.
Qed.
Lemma body_concerns i p past left l : past ++ i :: left = body p -> In l (writes i ++ reads i) -> concerns p l.
Proof.
  intros E I. assert (IB : In i (body p)) by (rewrite <- E; apply in_or_app; right; left; reflexivity).
  destruct (in_body i p IB) as [->|[[c ->]|[c ->]]]; cbn [writes reads app In] in I; repeat (destruct I as [<-|I]; [reflexivity|]); contradiction.
Qed.
Lemma races es s t u i j : sinv es s -> t <> u -> next s t i -> next s u j -> conflict i j -> exists p, i = Make p /\ j = IsNil p.
Proof.
  intros SI N NI NJ (l & Wl & Al). destruct (next_cases es s t i SI NI) as [(p & past & left & B & EB & X)|(E & _)]; [|rewrite E in Wl; contradiction].
  assert (C : concerns p l) by (apply (body_concerns i p past left); [exact EB|apply in_or_app; auto]).
  destruct (next_cases es s u j SI NJ) as [(q & past' & left' & B' & EB' & X')|(E & RD)].
  - assert (C' : concerns q l) by (apply (body_concerns j q past' left'); auto). assert (p = q) by (destruct l; cbn in C, C'; congruence). subst q. congruence.
  - rewrite E in Al. cbn [app] in Al. destruct (RD p l Al C) as [D| ->]; [congruence|]. exists p. split; [|reflexivity]. cbn [reads In] in Al. destruct Al as [<-|[]].
    assert (IB : In i (body p)) by (rewrite <- EB; apply in_or_app; right; left; reflexivity). destruct (in_body i p IB) as [->|[[c ->]|[c ->]]]; [reflexivity| |]; cbn [writes In] in Wl; destruct Wl as [Wl|[]]; discriminate.
Qed.
Lemma makes_once es s t p : sinv es s -> next s t (Make p) -> made (fst s) p = false.
Proof.
  intros SI NI. destruct (next_cases es s t _ SI NI) as [(q & past & left & B & EB & X)|(E & _)]; [|discriminate].
  assert (q = p) by (pose proof (body_concerns _ q past left (LMade p) EB ltac:(left; reflexivity)) as C; cbn in C; congruence). subst q. apply make_first in EB. subst past. now apply X.
Qed.

(* ---- one goroutine ---- *)
Definition clean (m : mem) : Prop := forall p, (once m p = Idle /\ made m p = false /\ forall c, var m p c = false) \/ (once m p = Done /\ full m p).
Fixpoint solo (n : nat) (t : nat) (m : mem) (th : thread) : option (mem * thread) :=
  match n with O => Some (m, th) | S k => match tstep t m th with Some (m', th') => solo k t m' th' | None => None end end.
Lemma solo_step n t m th m' th' : tstep t m th = Some (m', th') -> solo (S n) t m th = solo n t m' th'.
Proof. intros H. cbn [solo]. now rewrite H. Qed.
Lemma solo_app a b t m th m' th' : solo a t m th = Some (m', th') -> solo (a + b) t m th = solo b t m' th'.
Proof. revert m th. induction a as [|a IH]; intros m th H; [injection H as -> ->; reflexivity|]. cbn [solo Nat.add] in *. destruct (tstep t m th) as [[m1 th1]|]; [|discriminate]. now apply IH. Qed.
Lemma solo_body t p plain sd : forall left past m, past ++ left = body p -> once m p = Busy t -> executed m p past ->
  exists m', solo (length left) t m (mkth (left ++ plain) sd false) = Some (m', mkth plain sd false) /\ executed m' p (body p) /\ same_but p m m' /\ once m' p = Busy t.
Proof.
  induction left as [|i left IH]; intros past m EB B X.
  - rewrite app_nil_r in EB. subst past. exists m. cbn [length solo app]. split; [reflexivity|]. split; [exact X|]. split; [apply same_refl|exact B].
  - assert (IB : In i (body p)) by (rewrite <- EB; apply in_or_app; right; left; reflexivity). destruct X as (X0 & X1 & X2 & X3). cbn [length].
    assert (K : forall m1, tstep t m (mkth ((i :: left) ++ plain) sd false) = Some (m1, mkth (left ++ plain) sd false) -> once m1 p = once m p -> same_but p m m1 -> executed m1 p (past ++ [i]) ->
      exists m', solo (S (length left)) t m (mkth ((i :: left) ++ plain) sd false) = Some (m', mkth plain sd false) /\ executed m' p (body p) /\ same_but p m m' /\ once m' p = Busy t).
    { intros m1 T O SB X. rewrite (solo_step _ _ _ _ _ _ T). destruct (IH (past ++ [i]) m1) as (m' & R1 & R2 & R3 & R4); [now rewrite <- app_assoc|congruence|exact X|]. exists m'. split; [exact R1|]. split; [exact R2|]. split; [|exact R4].
      intros q Q. destruct (SB q Q) as (A1 & A2 & A3 & A4), (R3 q Q) as (B1 & B2 & B3 & B4). rewrite B1, B2, A1, A2. repeat split; intros c; [now rewrite B3|now rewrite B4]. }
    destruct (in_body i p IB) as [->|[[c ->]|[c ->]]].
    + apply make_first in EB as EP. subst past. eapply K; [reflexivity|reflexivity| |].
      * intros q Q. cbn [once made slot var]. rewrite !set1_neq by exact Q. repeat split.
      * unfold executed. cbn [app once made slot var]. rewrite set1_eq. split; [discriminate|]. split; [reflexivity|]. split; intros c [I|[]]; discriminate.
    + pose proof (first_make past _ left p EB ltac:(discriminate)) as MK. eapply K; [reflexivity|reflexivity| |].
      * intros q Q. cbn [once made slot var]. repeat split. intros d. unfold set2. destruct (pkg_eqb_spec q p); [contradiction|reflexivity].
      * unfold executed. cbn [once made slot var]. split; [now destruct past|]. split; [intros _; now apply X1|]. split.
        -- intros d I. apply in_snoc in I. unfold set2. rewrite pkg_eqb_refl. cbn [andb]. destruct (Z.eqb_spec d c) as [->|N]; [reflexivity|]. apply X2. destruct I as [I|I]; [exact I|congruence].
        -- intros d I. apply in_snoc in I. apply X3. destruct I as [I|I]; [exact I|discriminate].
    + pose proof (first_make past _ left p EB ltac:(discriminate)) as MK. eapply K; [unfold Setup.tstep; cbn [dead code app said]; rewrite (X1 MK); reflexivity|reflexivity| |].
      * intros q Q. cbn [once made slot var]. repeat split. intros d. unfold set2. destruct (pkg_eqb_spec q p); [contradiction|reflexivity].
      * unfold executed. cbn [once made slot var]. split; [now destruct past|]. split; [intros _; now apply X1|]. split.
        -- intros d I. apply in_snoc in I. apply X2. destruct I as [I|I]; [exact I|discriminate].
        -- intros d I. apply in_snoc in I. unfold set2. rewrite pkg_eqb_refl. cbn [andb]. destruct (Z.eqb_spec d c) as [->|N]; [reflexivity|]. apply X3. destruct I as [I|I]; [exact I|congruence].
Qed.
Lemma clean_have m p : clean m -> have m None p = true -> full m p.
Proof. intros C H. apply have_none in H. destruct (C p) as [(I & _)|(_ & F)]; [congruence|exact F]. Qed.
Lemma clean_lack m p : clean m -> have m None p = false -> made m p = false /\ forall c, var m p c = false.
Proof. intros C H. destruct (C p) as [(_ & M & V)|(D & _)]; [auto|]. unfold have in H. rewrite D in H. discriminate. Qed.
(* one goroutine alone: it panics exactly if it needs a table that it has not set up *)
Definition plain_instr (i : instr) : bool := match i with Make _ | SetVar _ _ | SetSlot _ _ | Leave _ => false | _ => true end.
Lemma solo_ends t : forall w c m sd, (work c <= w)%nat -> forallb plain_instr c = true -> within c -> clean m ->
  exists n m' th', solo n t m (mkth c sd false) = Some (m', th') /\ dead th' = negb (cready (have m None) c) /\ (cready (have m None) c = true -> code th' = [] /\ said th' = sd ++ all_says c).
Proof.
  induction w as [|w IH]; intros c m sd L P W C.
  - destruct c as [|i c]; [|rewrite work_cons in L; pose proof (weight_pos i); lia]. exists 0%nat, m, (mkth [] sd false). cbn [solo cready negb dead code said]. split; [reflexivity|]. split; [reflexivity|]. intros _. now rewrite app_nil_r.
  - destruct c as [|i c]; [exists 0%nat, m, (mkth [] sd false); cbn [solo cready negb dead code said]; split; [reflexivity|]; split; [reflexivity|]; intros _; now rewrite app_nil_r|].
    cbn [forallb] in P. apply andb_true_iff in P. destruct P as [Pi Pc]. rewrite work_cons in L. pose proof (within_cons i c W) as Wc. pose proof (weight_pos i) as WP.
    assert (GO : forall m1 c1 sd1 n1, solo n1 t m (mkth (i :: c) sd false) = Some (m1, mkth c1 sd1 false) -> (work c1 <= w)%nat -> forallb plain_instr c1 = true -> within c1 -> clean m1 ->
      cready (have m1 None) c1 = cready (have m None) (i :: c) -> (cready (have m1 None) c1 = true -> sd1 ++ all_says c1 = sd ++ all_says (i :: c)) ->
      exists n m' th', solo n t m (mkth (i :: c) sd false) = Some (m', th') /\ dead th' = negb (cready (have m None) (i :: c)) /\ (cready (have m None) (i :: c) = true -> code th' = [] /\ said th' = sd ++ all_says (i :: c))).
    { intros m1 c1 sd1 n1 T L1 P1 W1 C1 R1 S1. destruct (IH c1 m1 sd1 L1 P1 W1 C1) as (n & m' & th' & E & Dd & RR). exists (n1 + n)%nat, m', th'. rewrite (solo_app n1 n _ _ _ _ _ T). split; [exact E|]. rewrite <- R1. split; [exact Dd|]. intros H. destruct (RR H) as [-> ->]. split; [reflexivity|now apply S1]. }
    assert (DIE : forall th1, tstep t m (mkth (i :: c) sd false) = Some (m, th1) -> dead th1 = true -> cready (have m None) (i :: c) = false ->
      exists n m' th', solo n t m (mkth (i :: c) sd false) = Some (m', th') /\ dead th' = negb (cready (have m None) (i :: c)) /\ (cready (have m None) (i :: c) = true -> code th' = [] /\ said th' = sd ++ all_says (i :: c))).
    { intros th1 T Dd R. exists 1%nat, m, th1. cbn [solo]. rewrite T, R. split; [reflexivity|]. split; [exact Dd|discriminate]. }
    assert (SIMPLE : forall c1 sd1, tstep t m (mkth (i :: c) sd false) = Some (m, mkth c1 sd1 false) -> (work c1 <= w)%nat -> forallb plain_instr c1 = true -> within c1 ->
      cready (have m None) c1 = cready (have m None) (i :: c) -> sd1 ++ all_says c1 = sd ++ all_says (i :: c) ->
      exists n m' th', solo n t m (mkth (i :: c) sd false) = Some (m', th') /\ dead th' = negb (cready (have m None) (i :: c)) /\ (cready (have m None) (i :: c) = true -> code th' = [] /\ said th' = sd ++ all_says (i :: c))).
    { intros c1 sd1 T L1 P1 W1 R1 S1. apply (GO m c1 sd1 1%nat); auto. cbn [solo]. now rewrite T. }
    destruct i; cbn [plain_instr] in Pi; try discriminate.
    + (* Enter *) destruct (C p) as [(O & M & V)|(O & F)].
      * set (m1 := mkmem (set1 (once m) p (Busy t)) (made m) (slot m) (var m)).
        assert (T : tstep t m (mkth (Enter p :: c) sd false) = Some (m1, mkth (body p ++ Leave p :: c) sd false)) by (unfold Setup.tstep; cbn [dead code said]; rewrite O; reflexivity).
        assert (O1 : once m1 p = Busy t) by (cbn [m1 once]; apply set1_eq).
        assert (X1 : executed m1 p []) by (unfold executed; cbn [m1 made]; split; [intros _; exact M|]; split; [intros []|]; split; intros d []).
        destruct (solo_body t p (Leave p :: c) sd (body p) [] m1 eq_refl O1 X1) as (m2 & E2 & X2 & SB2 & O2). apply executed_full in X2.
        set (m3 := mkmem (set1 (once m2) p Done) (made m2) (slot m2) (var m2)).
        assert (O3 : once m3 p = Done) by (cbn [m3 once]; apply set1_eq).
        assert (OQ : forall q, q <> p -> once m3 q = once m q /\ made m3 q = made m q /\ (forall c, slot m3 q c = slot m q c) /\ (forall c, var m3 q c = var m q c)).
        { intros q Q. destruct (SB2 q Q) as (A1 & A2 & A3 & A4). cbn [m3 once made slot var]. rewrite set1_neq by exact Q. rewrite A1, A2. cbn [m1 once made]. rewrite set1_neq by exact Q. repeat split; intros d; [now rewrite A3|now rewrite A4]. }
        apply (GO m3 c sd (S (length (body p) + 1))).
        -- rewrite (solo_step _ _ _ _ _ _ T), (solo_app _ 1 _ _ _ _ _ E2). reflexivity.
        -- lia.
        -- exact Pc.
        -- exact Wc.
        -- intros q. destruct (pkg_eqb_spec q p) as [->|Q]; [right; split; [exact O3|exact X2]|]. destruct (OQ q Q) as (A1 & A2 & A3 & A4). destruct (C q) as [(I & M' & V')|(D & F)]; [left; rewrite A1, A2; repeat split; auto; intros d; now rewrite A4|right].
           split; [congruence|]. destruct F as (F1 & F2 & F3). unfold full. rewrite A2. split; [exact F1|]. split; intros d Hd; [rewrite A3; now apply F2|rewrite A4; now apply F3].
        -- cbn [cready]. apply cready_ext. intros q. destruct (pkg_eqb_spec q p) as [->|Q]; [unfold have; rewrite O3; reflexivity|]. cbn [orb]. unfold have. destruct (OQ q Q) as (-> & _). reflexivity.
        -- intros _. reflexivity.
      * apply (SIMPLE c sd); auto; [unfold Setup.tstep; cbn [dead code said]; rewrite O; reflexivity|lia|]. cbn [cready]. apply cready_ext. intros q. destruct (pkg_eqb_spec q p) as [->|Q]; [unfold have; now rewrite O|reflexivity].
    + (* IsNil *) apply (SIMPLE c sd); auto. lia.
    + (* Look *) destruct cs as [|d cs].
      * destruct pic.
        -- apply (SIMPLE (Pict p r :: c) sd); auto.
           ++ rewrite work_cons. cbn [weight length] in *. lia.
           ++ apply (within_app [Pict p r] c); [apply within_one; discriminate|exact Wc].
        -- apply (SIMPLE c (sd ++ [none p])); auto; [cbn [weight length] in L; lia|]. now rewrite <- app_assoc.
      * destruct (have m None p) eqn:H.
        -- destruct (clean_have m p C H) as (F1 & F2 & F3). pose proof (F2 d (W p r (d :: cs) pic ltac:(left; reflexivity) d ltac:(left; reflexivity))) as SD. destruct (member p d r) eqn:M.
           ++ apply (SIMPLE c (sd ++ [d])); auto.
              ** unfold Setup.tstep. cbn [dead code said]. now rewrite F1, SD, M.
              ** cbn [weight length] in L. lia.
              ** cbn [cready find]. rewrite M, H, orb_true_r, orb_true_r. reflexivity.
              ** rewrite <- app_assoc. unfold all_says. cbn [flat_map says]. unfold found. cbn [find]. now rewrite M.
           ++ apply (SIMPLE (Look p r cs pic :: c) sd); auto.
              ** unfold Setup.tstep. cbn [dead code said]. now rewrite F1, SD, M.
              ** rewrite work_cons. cbn [weight length] in *. lia.
              ** intros q r' cs' pic' [I|I]; [|now apply (Wc q r' cs' pic')]. injection I as <- <- <- <-. intros e' He. apply (W p r (d :: cs) pic); [left; reflexivity|right; exact He].
              ** cbn [cready find]. rewrite M, H, !orb_true_r. reflexivity.
              ** unfold all_says. cbn [flat_map says]. unfold found. cbn [find]. now rewrite M.
        -- destruct (clean_lack m p C H) as (M & _). eapply DIE; [unfold Setup.tstep; cbn [dead code said]; rewrite M; reflexivity|reflexivity|]. cbn [cready isnil orb]. now rewrite H.
    + (* Pict *) destruct (have m None PE) eqn:H.
      * destruct (clean_have m PE C H) as (_ & _ & F3). apply (SIMPLE c (sd ++ [if member PE 5 r then pictographic p else none p])); auto.
        -- unfold Setup.tstep. cbn [dead code said]. rewrite F3 by (cbn; tauto). reflexivity.
        -- lia.
        -- cbn [cready]. now rewrite H.
        -- now rewrite <- app_assoc.
      * destruct (clean_lack m PE C H) as (_ & V). eapply DIE; [unfold Setup.tstep; cbn [dead code said]; rewrite V; reflexivity|reflexivity|]. cbn [cready]. now rewrite H.
    + (* Say *) apply (SIMPLE c (sd ++ [z])); auto; [lia|]. now rewrite <- app_assoc.
Qed.
(* the same as part of a system *)
Lemma solo_run t : forall n m th ths m' th', nth_error ths t = Some th -> solo n t m th = Some (m', th') -> exists ths', run (repeat t n) (m, ths) = Some (m', ths') /\ nth_error ths' t = Some th' /\ length ths' = length ths.
Proof.
  induction n as [|n IH]; intros m th ths m' th' N H; [injection H as <- <-; exists ths; auto|]. cbn [solo repeat Setup.run] in *. destruct (tstep t m th) as [[m1 th1]|] eqn:T; [|discriminate].
  unfold Setup.sstep. cbn [fst snd]. rewrite N, T. assert (LT : (t < length ths)%nat) by (apply nth_error_Some; congruence). destruct (IH m1 th1 (put t th1 ths) m' th' (put_same t th1 ths LT) H) as (ths' & A & B & D). exists ths'. rewrite put_length in D. auto.
Qed.

(* ---- Specification: calls ---- *)
(* the tables that a call makes sure are set up; the tables it needs beyond these; the classes it finds *)
Definition gives (c : call) : list pkg :=
  match c with SetupE => [PE] | SetupG | StringOf _ => [PG; PE] | SetupW | NewW => [PW; PE] | SetupL | NewL => [PL] | _ => [] end.
Definition needs (c : call) : list pkg :=
  match c with
  | ClassG r => if r =? 0 then [] else [PG]
  | ClassW r => if r =? 0 then [] else [PW]
  | ClassL r | BreakerL r => if r =? 0 then [] else [PL]
  | EmojiClass _ | WidthOf _ => [PE]
  | BreakerG r => if r =? 0 then [] else if Grapheme.ClassForRune (member PG) r =? Grapheme.Any then [PG; PE] else [PG]
  | BreakerW r => if r =? 0 then [] else if Words.ClassForRune (member PW) r =? Words.Other then [PW; PE] else [PW]
  | _ => []
  end.
Definition answers (c : call) : list Z :=
  match c with
  | ClassG r => [Grapheme.ClassForRune (member PG) r]
  | ClassW r => [Words.ClassForRune (member PW) r]
  | ClassL r | BreakerL r => [Line.ClassForRune (member PL) r]
  | EmojiClass r | WidthOf r => [WidthSpec.EmojisClassForRune (member PE) r]
  | BreakerG r => [Grapheme.CodePointClassFor (member PG) (member PE 5) r]
  | BreakerW r => [Words.CodePointClassFor (member PW) (member PE 5) r]
  | StringOf rs => map (Grapheme.CodePointClassFor (member PG) (member PE 5)) rs
  | _ => []
  end.
Definition within_list (p : pkg) (l : list pkg) : bool := existsb (pkg_eqb p) l.
(* a goroutine by itself sets up all tables before it needs them *)
Fixpoint ready (before : list pkg) (cs : list call) : bool :=
  match cs with
  | [] => true
  | c :: r => forallb (fun p => within_list p before) (needs c) && ready (gives c ++ before) r
  end.

Lemma find_some_ne {A} (f : A -> bool) l x : find f l = Some x -> In x l.
Proof. intros H. now apply find_some in H. Qed.
Lemma looks_g rs : all_says (flat_map (look PG true) rs) = map (Grapheme.CodePointClassFor (member PG) (member PE 5)) rs.
Proof.
  induction rs as [|r rs IH]; [reflexivity|]. cbn [flat_map map]. unfold all_says in *. rewrite flat_map_app, IH. change (?a :: ?l) with ([a] ++ l). f_equal.
  unfold look, Grapheme.CodePointClassFor, Grapheme.ClassForRune. destruct (r =? 0); [reflexivity|]. cbn [flat_map says app]. unfold found. fold (ids PG). change [0; 1; 2; 3; 4; 5; 6; 7; 8; 9; 10; 11; 12] with (ids PG).
  destruct (find _ (ids PG)) as [c|] eqn:F; [|reflexivity]. apply find_some_ne in F. cbn [ids In] in F. unfold Grapheme.Any. destruct (Z.eqb_spec c 999); [lia|reflexivity].
Qed.
Lemma looks_w r : all_says (look PW true r) = [Words.CodePointClassFor (member PW) (member PE 5) r].
Proof.
  unfold look, Words.CodePointClassFor, Words.ClassForRune. destruct (r =? 0); [reflexivity|]. unfold all_says. cbn [flat_map says app]. unfold found. change [0; 1; 2; 3; 4; 5; 6; 7; 8; 9; 10; 11; 12; 13; 14; 15; 16; 17] with (ids PW).
  destruct (find _ (ids PW)) as [c|] eqn:F; [|reflexivity]. apply find_some_ne in F. cbn [ids In] in F. unfold Words.Other. destruct (Z.eqb_spec c 999); [lia|reflexivity].
Qed.
Lemma expand_says c : all_says (expand c) = answers c.
Proof.
  destruct c; cbn [expand answers]; try reflexivity.
  - unfold look, Grapheme.ClassForRune. now destruct (r =? 0).
  - unfold look, Words.ClassForRune. now destruct (r =? 0).
  - unfold look, Line.ClassForRune. now destruct (r =? 0).
  - pose proof (looks_g [r]) as H. cbn [flat_map map] in H. now rewrite app_nil_r in H.
  - apply looks_w.
  - unfold look, Line.ClassForRune. now destruct (r =? 0).
  - unfold all_says. rewrite flat_map_app. apply looks_g.
Qed.
Lemma calls_says cs : all_says (flat_map expand cs) = flat_map answers cs.
Proof. induction cs as [|c cs IH]; [reflexivity|]. cbn [flat_map]. unfold all_says in *. rewrite flat_map_app, IH. f_equal. apply expand_says. Qed.
Lemma look_plain p pic r : forallb plain_instr (look p pic r) = true.
Proof. unfold look. now destruct (r =? 0). Qed.
Lemma calls_plain cs : forallb plain_instr (flat_map expand cs) = true.
Proof.
  induction cs as [|c cs IH]; [reflexivity|]. cbn [flat_map]. rewrite forallb_app, IH, andb_true_r. destruct c; cbn [expand]; try reflexivity; try apply look_plain.
  rewrite forallb_app. cbn [forallb plain_instr andb]. induction rs as [|r rs IHr]; [reflexivity|]. cbn [flat_map]. now rewrite forallb_app, IHr, look_plain.
Qed.
Lemma look_within p pic r : within (look p pic r).
Proof. unfold look. destruct (r =? 0); intros q r' cs pic' [I|[]]; [discriminate|]. injection I as <- <- <- <-. auto. Qed.
Lemma calls_within cs : within (flat_map expand cs).
Proof.
  induction cs as [|c cs IH]; [intros p r l pic []|]. cbn [flat_map]. apply within_app; [|exact IH]. destruct c; cbn [expand]; try apply look_within; try (intros p r' l pic I; cbn [In] in I; repeat (destruct I as [I|I]; [try discriminate; injection I as <- <- <- <-; auto; fail|]); destruct I; fail).
  apply (within_app [Enter PG; Enter PE] (flat_map (look PG true) rs)); [intros p r' l pic [I|[I|[]]]; discriminate|]. induction rs as [|r rs IHr]; [intros p r l pic []|]. cbn [flat_map]. apply within_app; [apply look_within|exact IHr].
Qed.
Lemma looks_ready D rs c : D PG = true -> D PE = true -> cready D (flat_map (look PG true) rs ++ c) = cready D c.
Proof.
  intros G E. induction rs as [|r rs IH]; [reflexivity|]. cbn [flat_map]. rewrite <- app_assoc. unfold look at 1. destruct (r =? 0); cbn [app cready]; [exact IH|]. rewrite G, E, IH. cbn [negb orb isnil ids]. now destruct (find _ _).
Qed.
Lemma within_list_app p a l : within_list p (a ++ l) = within_list p a || within_list p l.
Proof. apply existsb_app. Qed.
Lemma look_ready D p r c : cready D (look p false r ++ c) = forallb D (if r =? 0 then [] else [p]) && cready D c.
Proof. unfold look. destruct (r =? 0); [reflexivity|]. cbn [app cready negb orb forallb]. rewrite !andb_true_r. destruct p; reflexivity. Qed.
Lemma calls_ready cs : forall before D, (forall p, D p = within_list p before) -> cready D (flat_map expand cs) = ready before cs.
Proof.
  induction cs as [|c cs IH]; intros before D E; [reflexivity|]. cbn [flat_map ready].
  assert (N : forallb (fun p => within_list p before) (needs c) = forallb D (needs c)) by (induction (needs c) as [|p l IHl]; [reflexivity|cbn [forallb]; now rewrite E, IHl]). rewrite N. clear N.
  assert (K : gives c = [] -> cready D (flat_map expand cs) = ready (gives c ++ before) cs) by (intros ->; cbn [app]; now apply IH).
  destruct c; cbn [expand gives needs forallb andb app]; try (apply IH; intros q; cbn [app within_list existsb]; rewrite ?E; reflexivity).
  - cbn [cready]. apply IH. intros q. rewrite E. unfold within_list. cbn [existsb]. destruct (pkg_eqb q PE), (pkg_eqb q PG); reflexivity.
  - cbn [cready]. apply IH. intros q. rewrite E. unfold within_list. cbn [existsb]. destruct (pkg_eqb q PE), (pkg_eqb q PW); reflexivity.
  - cbn [cready]. apply IH. intros q. rewrite E. unfold within_list. cbn [existsb]. destruct (pkg_eqb q PE), (pkg_eqb q PW); reflexivity.
  - rewrite look_ready. f_equal. now apply IH.
  - rewrite look_ready. f_equal. now apply IH.
  - rewrite look_ready. f_equal. now apply IH.
  - cbn [cready negb orb isnil ids]. rewrite !andb_true_r. f_equal. now apply IH.
  - unfold look, Grapheme.ClassForRune. destruct (r =? 0); [cbn [app cready forallb andb]; now apply IH|]. cbn [app cready negb orb]. change [0; 1; 2; 3; 4; 5; 6; 7; 8; 9; 10; 11; 12] with (ids PG). change (isnil (ids PG)) with false. cbn [orb].
    destruct (find _ (ids PG)) as [c|] eqn:F.
    + apply find_some_ne in F. cbn [ids In] in F. unfold Grapheme.Any. destruct (Z.eqb_spec c 999); [lia|]. cbn [forallb]. f_equal. now apply IH.
    + cbn [forallb]. rewrite Z.eqb_refl. cbn [forallb]. rewrite andb_true_r. f_equal. now apply IH.
  - unfold look, Words.ClassForRune. destruct (r =? 0); [cbn [app cready forallb andb]; now apply IH|]. cbn [app cready negb orb]. change [0; 1; 2; 3; 4; 5; 6; 7; 8; 9; 10; 11; 12; 13; 14; 15; 16; 17] with (ids PW). change (isnil (ids PW)) with false. cbn [orb].
    destruct (find _ (ids PW)) as [c|] eqn:F.
    + apply find_some_ne in F. cbn [ids In] in F. unfold Words.Other. destruct (Z.eqb_spec c 999); [lia|]. cbn [forallb]. f_equal. now apply IH.
    + cbn [forallb]. rewrite Z.eqb_refl. cbn [forallb]. rewrite andb_true_r. f_equal. now apply IH.
  - rewrite look_ready. f_equal. now apply IH.
  - cbn [cready]. rewrite looks_ready by (rewrite ?pkg_eqb_refl, ?orb_true_r; reflexivity). apply IH. intros q. rewrite E. unfold within_list. cbn [existsb]. destruct (pkg_eqb q PE), (pkg_eqb q PG); reflexivity.
  - cbn [cready negb orb isnil ids]. rewrite !andb_true_r. f_equal. now apply IH.
Qed.

(* ---- programs ---- *)
Lemma mem0_good n : good_mem n mem0.
Proof. split; [discriminate|]. split; [reflexivity|discriminate]. Qed.
Lemma mem0_clean : clean mem0.
Proof. intros p. left. repeat split. Qed.
Lemma init_inv gs : (forall g, In g gs -> ready [] g = true) -> sinv (map (flat_map answers) gs) (init gs).
Proof.
  intros R. unfold init, sinv. cbn [fst snd]. split; [apply mem0_good|]. rewrite !map_length. split; [reflexivity|]. intros t th N. rewrite nth_error_map in N. destruct (nth_error gs t) as [g|] eqn:G; [|discriminate]. injection N as <-.
  split; [apply calls_within|]. split; [reflexivity|]. exists [], (flat_map expand g), None. split; [reflexivity|]. split; [split; [reflexivity|discriminate]|]. split.
  - rewrite (calls_ready g []); [apply R; now apply nth_error_In in G|reflexivity].
  - cbn [said app]. rewrite calls_says. erewrite nth_error_nth; [reflexivity|]. now rewrite nth_error_map, G.
Qed.
Definition prefix (a b : list Z) : Prop := exists c, a ++ c = b.
Lemma concurrent gs sched m ths : (forall g, In g gs -> ready [] g = true) -> run sched (init gs) = Some (m, ths) ->
  length ths = length gs /\
  (forall t g th, nth_error gs t = Some g -> nth_error ths t = Some th -> dead th = false /\ prefix (said th) (flat_map answers g) /\ (code th = [] -> said th = flat_map answers g)) /\
  (length sched <= total (init gs))%nat /\
  ((forall th, In th ths -> code th = []) \/ exists t s', sstep t (m, ths) = Some s').
Proof.
  intros R H. pose proof (sinv_run _ sched _ _ (init_inv gs R) H) as SI. pose proof SI as (GM & L & G). cbn [fst snd] in *. rewrite map_length in L. split; [exact L|]. split.
  - intros t g th NG NT. destruct (G t th NT) as (W & Dd & inner & plain & o & EC & I & RR & S). assert (E : nth t (map (flat_map answers) gs) [] = flat_map answers g) by (apply nth_error_nth; now rewrite nth_error_map, NG). rewrite E in S.
    split; [exact Dd|]. split; [eexists; exact S|]. intros C. rewrite C in EC. symmetry in EC. apply app_eq_nil in EC. destruct EC as [_ ->]. cbn in S. now rewrite app_nil_r in S.
  - split; [|exact (progress _ _ SI)]. apply total_run in H. lia.
Qed.
Lemma alone gs t g : nth_error gs t = Some g -> exists n m ths th, run (repeat t n) (init gs) = Some (m, ths) /\ nth_error ths t = Some th /\
  dead th = negb (ready [] g) /\ (ready [] g = true -> code th = [] /\ said th = flat_map answers g).
Proof.
  intros G. destruct (solo_ends t (work (flat_map expand g)) (flat_map expand g) mem0 [] (le_n _) (calls_plain g) (calls_within g) mem0_clean) as (n & m & th & E & Dd & RR).
  rewrite (calls_ready g []) in Dd, RR by reflexivity. rewrite calls_says in RR. assert (NS : nth_error (map start gs) t = Some (start g)) by now rewrite nth_error_map, G. destruct (solo_run t n mem0 (start g) (map start gs) m th NS E) as (ths & H & N & _).
  exists n, m, ths, th. auto.
Qed.
Lemma safe_iff gs : (forall sched m ths th, run sched (init gs) = Some (m, ths) -> In th ths -> dead th = false) <-> (forall g, In g gs -> ready [] g = true).
Proof.
  split.
  - intros S g I. apply In_nth_error in I. destruct I as (t & G). destruct (alone gs t g G) as (n & m & ths & th & H & N & Dd & _). apply nth_error_In in N. rewrite (S _ _ _ _ H N) in Dd. now destruct (ready [] g).
  - intros R sched m ths th H I. apply In_nth_error in I. destruct I as (t & N). destruct (concurrent gs sched m ths R H) as (L & A & _). destruct (nth_error gs t) as [g|] eqn:G; [|apply nth_error_None in G; rewrite <- L in G; assert (nth_error ths t <> None) by congruence; apply nth_error_Some in H0; lia]. now apply (A t g th).
Qed.
(* how often a run creates the table of package p *)
Definition at_make (p : pkg) (t : nat) (s : sys) : bool :=
  match nth_error (snd s) t with Some th => match code th with Make q :: _ => pkg_eqb p q | _ => false end | None => false end.
Fixpoint creations (p : pkg) (sched : list nat) (s : sys) : nat :=
  match sched with
  | [] => 0%nat
  | t :: r => match sstep t s with Some s' => ((if at_make p t s then 1 else 0) + creations p r s')%nat | None => 0%nat end
  end.
Lemma made_step p t s s' : sstep t s = Some s' -> (made (fst s) p = true -> made (fst s') p = true) /\ (at_make p t s = true -> made (fst s') p = true).
Proof.
  intros E. unfold Setup.sstep in E. unfold at_make. destruct (nth_error (snd s) t) as [th|]; [|discriminate]. destruct (tstep t (fst s) th) as [[m' th']|] eqn:T; [|discriminate]. injection E as <-. cbn [fst]. unfold Setup.tstep in T. destruct (dead th); [discriminate|].
  destruct (code th) as [|i rest]; [discriminate|]. destruct i; try (injection T as <- <-; split; [auto|discriminate]).
  - destruct (once (fst s) p0); try discriminate; injection T as <- <-; (split; [auto|discriminate]).
  - injection T as <- <-. cbn [made]. unfold set1. destruct (pkg_eqb_spec p p0); split; auto; discriminate.
  - destruct (made (fst s) p0); injection T as <- <-; (split; [auto|discriminate]).
  - destruct cs; [destruct pic; injection T as <- <-; (split; [auto|discriminate])|]. destruct (made (fst s) p0); [destruct (slot (fst s) p0 z && member p0 z r)|]; injection T as <- <-; (split; [auto|discriminate]).
  - destruct (var (fst s) PE 5); injection T as <- <-; (split; [auto|discriminate]).
Qed.
Lemma creations_le es p sched : forall s, sinv es s -> (creations p sched s <= if made (fst s) p then 0 else 1)%nat.
Proof.
  induction sched as [|t r IH]; intros s SI; cbn [creations]; [lia|]. destruct (sstep t s) as [s'|] eqn:E; [|lia]. specialize (IH s' (sinv_step es s t s' SI E)). destruct (made_step p t s s' E) as (M1 & M2).
  destruct (at_make p t s) eqn:A.
  - rewrite (M2 eq_refl) in IH. assert (F : made (fst s) p = false); [|rewrite F; lia]. apply (makes_once es s t p SI). unfold at_make in A. destruct (nth_error (snd s) t) as [th|] eqn:N; [|discriminate]. destruct (code th) as [|[]] eqn:C; try discriminate. destruct (pkg_eqb_spec p p0) as [<-|]; [|discriminate]. exists th, l. auto.
  - destruct (made (fst s) p); [rewrite (M1 eq_refl) in IH; lia|]. destruct (made (fst s') p); lia.
Qed.
(* without the nil checks of NewWordBreaker and NewLineWrap *)
Definition no_new (c : call) : bool := match c with NewW | NewL => false | _ => true end.
Definition nonil (c : list instr) : Prop := forall p, ~ In (IsNil p) c.
Lemma nonil_app a c : nonil a -> nonil c -> nonil (a ++ c).
Proof. intros A C p I. apply in_app_or in I. destruct I; [now apply (A p)|now apply (C p)]. Qed.
Lemma nonil_step t m th m' th' : nonil (code th) -> tstep t m th = Some (m', th') -> nonil (code th').
Proof.
  intros W T. unfold Setup.tstep in T. destruct (dead th); [discriminate|]. destruct (code th) as [|i rest]; [discriminate|]. assert (Wr : nonil rest) by (intros p I; apply (W p); now right).
  destruct i; try (injection T as <- <-; exact Wr).
  - destruct (once m p); [|discriminate|injection T as <- <-; exact Wr]. assert (E : code th' = body p ++ [Leave p] ++ rest) by (injection T as _ <-; reflexivity). rewrite E. apply nonil_app; [|apply nonil_app; [intros q [I|[]]; discriminate|exact Wr]]. intros q I. apply in_body in I. destruct I as [I|[[c I]|[c I]]]; discriminate.
  - destruct (made m p); injection T as <- <-; exact Wr.
  - destruct cs as [|c cs].
    + destruct pic; injection T as <- <-; [|exact Wr]. intros q [I|I]; [discriminate|now apply (Wr q)].
    + destruct (made m p); [|injection T as <- <-; exact Wr]. destruct (slot m p c && member p c r); injection T as <- <-; [exact Wr|]. intros q [I|I]; [discriminate|now apply (Wr q)].
  - destruct (var m PE 5); injection T as <- <-; exact Wr.
Qed.
Lemma nonil_run sched : forall s s', (forall th, In th (snd s) -> nonil (code th)) -> run sched s = Some s' -> forall th, In th (snd s') -> nonil (code th).
Proof.
  induction sched as [|t r IH]; intros s s' N H; [injection H as <-; exact N|]. cbn [Setup.run] in H. destruct (sstep t s) as [s1|] eqn:E; [|discriminate]. apply (IH s1); [|exact H]. unfold Setup.sstep in E. destruct (nth_error (snd s) t) as [th|] eqn:NT; [|discriminate]. destruct (tstep t (fst s) th) as [[m' th']|] eqn:T; [|discriminate]. injection E as <-. cbn [snd].
  intros x I. apply In_nth_error in I. destruct I as (u & NU). destruct (Nat.eq_dec t u) as [<-|NE].
  - rewrite put_same in NU by (apply nth_error_Some; congruence). injection NU as <-. apply (nonil_step t (fst s) th m'); [|exact T]. apply N. now apply nth_error_In in NT.
  - rewrite put_other in NU by exact NE. apply N. now apply nth_error_In in NU.
Qed.
Lemma calls_nonil cs : forallb no_new cs = true -> nonil (flat_map expand cs).
Proof.
  induction cs as [|c cs IH]; intros F; [intros p []|]. cbn [forallb flat_map] in *. apply andb_true_iff in F. destruct F as [Fc F]. apply nonil_app; [|now apply IH].
  assert (L : forall p pic r, nonil (look p pic r)) by (intros p pic r q; unfold look; destruct (r =? 0); intros [I|[]]; discriminate).
  destruct c; cbn [no_new expand] in *; try discriminate; try apply L; try (intros q I; cbn [In] in I; intuition discriminate).
  apply (nonil_app [Enter PG; Enter PE]); [intros q [I|[I|[]]]; discriminate|]. induction rs as [|r rs IHr]; [intros p []|]. cbn [flat_map]. apply nonil_app; [apply L|exact IHr].
Qed.
End Tables.
