(* SetupMain.v -- a goroutine sets up tables and starts other goroutines afterwards. *)
From Coq Require Import List ZArith Lia Bool Arith.
From Verif Require Import Base Setup SetupProofs.
From Verif Require Grapheme Words Line WidthSpec.
Import ListNotations.
Open Scope Z_scope.

Section Tables.
Context (member : pkg -> Z -> Z -> bool) (orderL : list Z).
Hypothesis order_all : forall c, In c Line.all_classes -> In c orderL.
Notation body := (body orderL). Notation tstep := (tstep member orderL). Notation sstep := (sstep member orderL). Notation run := (run member orderL). Notation ready := (ready member). Notation answers := (answers member). Notation sinv := (sinv member orderL).

(* a set-up that is done stays done *)
Lemma done_step t m th m' th' p : tstep t m th = Some (m', th') -> once m p = Done -> once m' p = Done.
Proof.
  intros T D. unfold Setup.tstep in T. destruct (dead th); [discriminate|]. destruct (code th) as [|i rest]; [discriminate|]. destruct i; try (injection T as <- <-; exact D).
  - destruct (once m p0) eqn:O; try discriminate; injection T as <- <-; [|exact D]. cbn [once]. rewrite set1_neq; [exact D|]. intros ->. congruence.
  - destruct (made m p0); injection T as <- <-; exact D.
  - injection T as <- <-. cbn [once]. unfold set1. now destruct (pkg_eqb p p0).
  - destruct cs; [destruct pic; injection T as <- <-; exact D|]. destruct (made m p0); [destruct (slot m p0 z && member p0 z r)|]; injection T as <- <-; exact D.
  - destruct (var m PE 5); injection T as <- <-; exact D.
Qed.
(* a set-up that is on the way will be done *)
Definition promised (t : nat) (p : pkg) (s : sys) : Prop :=
  once (fst s) p = Done \/ exists th, nth_error (snd s) t = Some th /\ (In (Enter p) (code th) \/ In (Leave p) (code th)).
Lemma promise_step t p u s s' : sstep u s = Some s' -> promised t p s -> promised t p s'.
Proof.
  intros E [D|(th & N & I)]; unfold Setup.sstep in E; destruct (nth_error (snd s) u) as [thu|] eqn:NU; try discriminate; destruct (tstep u (fst s) thu) as [[m' th']|] eqn:T; try discriminate; injection E as <-; unfold promised; cbn [fst snd].
  - left. exact (done_step u (fst s) thu m' th' p T D).
  - destruct (Nat.eq_dec u t) as [->|NE]; [|right; exists th; rewrite put_other by exact NE; auto].
    rewrite N in NU. injection NU as <-.
    assert (K : once m' p = Done \/ In (Enter p) (code th') \/ In (Leave p) (code th')).
    { unfold Setup.tstep in T. destruct (dead th); [discriminate|]. destruct (code th) as [|i rest]; [discriminate|].
      assert (R : i <> Enter p -> i <> Leave p -> In (Enter p) rest \/ In (Leave p) rest) by (intros A B; destruct I as [[I|I]|[I|I]]; auto; congruence).
      destruct i; try (injection T as <- <-; right; apply R; discriminate).
      - destruct (once (fst s) p0) eqn:O; try discriminate.
        + assert (EC : code th' = body p0 ++ Leave p0 :: rest) by (injection T as _ <-; reflexivity). rewrite EC. right. destruct (pkg_eqb_spec p p0) as [<-|Q]; [right; apply in_or_app; right; left; reflexivity|].
          assert (A : Enter p0 <> Enter p) by congruence. assert (B : Enter p0 <> Leave p) by discriminate. destruct (R A B); [left|right]; apply in_or_app; right; right; assumption.
        + injection T as <- <-. cbn [code]. destruct (pkg_eqb_spec p p0) as [<-|Q]; [left; exact O|]. right. apply R; congruence.
      - destruct (made (fst s) p0); injection T as <- <-; right; apply R; discriminate.
      - injection T as <- <-. cbn [code once]. destruct (pkg_eqb_spec p p0) as [<-|Q]; [left; apply set1_eq|]. right. apply R; congruence.
      - destruct cs; [destruct pic; injection T as <- <-; cbn [code In]; right; destruct R; try discriminate; auto|]. destruct (made (fst s) p0); [destruct (slot (fst s) p0 z && member p0 z r)|]; injection T as <- <-; cbn [code In]; right; destruct R; try discriminate; auto.
      - destruct (var (fst s) PE 5); injection T as <- <-; right; apply R; discriminate. }
    destruct K as [K|K]; [left; exact K|]. right. exists th'. split; [|exact K]. apply put_same. apply nth_error_Some. congruence.
Qed.
Lemma promise_run t p sched : forall s s', run sched s = Some s' -> promised t p s -> promised t p s'.
Proof.
  induction sched as [|u r IH]; intros s s' H P; [injection H as <-; exact P|]. cbn [Setup.run] in H. destruct (sstep u s) as [s1|] eqn:E; [|discriminate]. apply (IH s1); [exact H|]. now apply (promise_step t p u s).
Qed.
Lemma done_run sched p : forall s s', run sched s = Some s' -> once (fst s) p = Done -> once (fst s') p = Done.
Proof.
  induction sched as [|u r IH]; intros s s' H P; [injection H as <-; exact P|]. cbn [Setup.run] in H. destruct (sstep u s) as [s1|] eqn:E; [|discriminate]. apply (IH s1); [exact H|].
  unfold Setup.sstep in E. destruct (nth_error (snd s) u) as [thu|]; [|discriminate]. destruct (tstep u (fst s) thu) as [[m' th']|] eqn:T; [|discriminate]. injection E as <-. exact (done_step u (fst s) thu m' th' p T P).
Qed.

(* ---- Specification ---- *)
(* the tables set up by calls *)
Definition all_gives (cs : list call) : list pkg := flat_map gives cs.
Lemma gives_enter cs p : In p (all_gives cs) -> In (Enter p) (flat_map expand cs).
Proof.
  unfold all_gives. intros I. apply in_flat_map in I. destruct I as (c & I & G). apply in_flat_map. exists c. split; [exact I|]. destruct c; cbn [gives expand] in *; cbn [In app] in *; intuition congruence.
Qed.
(* new goroutines *)
Definition spawn (m : mem) (gs : list (list call)) : sys := (m, map start gs).
(* when all goroutines have ended, the tables that are begun are complete *)
Lemma ended es s : sinv es s -> (forall th, In th (snd s) -> code th = []) -> good_mem 0 (fst s).
Proof.
  intros ((G1 & G2 & G3) & L & G) E. split; [exact G1|]. split; [exact G2|]. intros p t B. exfalso. pose proof (G3 p t B) as LT. destruct (nth_error (snd s) t) as [th|] eqn:N; [|apply nth_error_None in N; lia].
  destruct (G t th N) as (_ & _ & inner & plain & o & EC & I & _). rewrite (E th (nth_error_In _ _ N)) in EC. symmetry in EC. apply app_eq_nil in EC. destruct EC as [-> _]. destruct o as [q|]; cbn [inside] in I.
  - destruct I as (_ & _ & past & left & _ & EI & _). destruct left; discriminate EI.
  - destruct I as (_ & U). exact (U p B).
Qed.
Lemma spawn_inv m gs before : good_mem 0 m -> (forall p, within_list p before = true -> once m p = Done) -> (forall g, In g gs -> ready before g = true) -> sinv (map (flat_map answers) gs) (spawn m gs).
Proof.
  intros (G1 & G2 & G3) B R. unfold spawn, SetupProofs.sinv. cbn [fst snd]. assert (NB : forall p t, once m p <> Busy t) by (intros p t H; specialize (G3 p t H); lia).
  split; [split; [exact G1|split; [exact G2|intros p t H; now apply NB in H]]|]. rewrite !map_length. split; [reflexivity|]. intros t th N. rewrite nth_error_map in N. destruct (nth_error gs t) as [g|] eqn:G; [|discriminate]. injection N as <-.
  split; [apply calls_within|]. split; [reflexivity|]. exists [], (flat_map expand g), None. split; [reflexivity|]. split; [split; [reflexivity|intros p; apply NB]|]. split.
  - apply (cready_mono member (flat_map expand g) (fun p => within_list p before)); [intros p P; unfold have; now rewrite (B p P)|]. rewrite (calls_ready member g before) by reflexivity. apply R. now apply nth_error_In in G.
  - cbn [said app]. rewrite calls_says. symmetry. erewrite nth_error_nth; [reflexivity|]. now rewrite nth_error_map, G.
Qed.
(* the main goroutine has ended its set-up *)
Lemma main_done cs sched m th : ready [] cs = true -> run sched (init [cs]) = Some (m, [th]) -> code th = [] ->
  good_mem 0 m /\ forall p, within_list p (all_gives cs) = true -> once m p = Done.
Proof.
  intros R H E. assert (R1 : forall g, In g [cs] -> ready [] g = true) by (intros g [<-|[]]; exact R). split.
  - apply (ended _ (m, [th]) (sinv_run member orderL order_all _ sched _ _ (init_inv member orderL [cs] R1) H)). intros x [<-|[]]. exact E.
  - intros p P. apply existsb_exists in P. destruct P as (q & I & Q). destruct (pkg_eqb_spec p q) as [<-|]; [|discriminate]. destruct (promise_run 0 p sched _ _ H) as [D|(x & N & X)].
    + right. exists (start cs). split; [reflexivity|]. left. now apply gives_enter.
    + exact D.
    + injection N as <-. rewrite E in X. destruct X as [[]|[]].
Qed.
(* nil checks only of tables that are done *)
Definition nil_done (D : list pkg) (c : list instr) : Prop := forall p, In (IsNil p) c -> within_list p D = true.
Definition new_done (D : list pkg) (c : call) : bool := match c with NewW => within_list PW D | NewL => within_list PL D | _ => true end.
Lemma nil_app D a c : nil_done D a -> nil_done D c -> nil_done D (a ++ c).
Proof. intros A C p I. apply in_app_or in I. destruct I; auto. Qed.
Lemma nil_step D t m th m' th' : nil_done D (code th) -> tstep t m th = Some (m', th') -> nil_done D (code th').
Proof.
  intros W T. unfold Setup.tstep in T. destruct (dead th); [discriminate|]. destruct (code th) as [|i rest]; [discriminate|]. assert (Wr : nil_done D rest) by (intros p I; apply (W p); now right).
  destruct i; try (injection T as <- <-; exact Wr).
  - destruct (once m p); [|discriminate|injection T as <- <-; exact Wr]. assert (E : code th' = body p ++ [Leave p] ++ rest) by (injection T as _ <-; reflexivity). rewrite E. apply nil_app; [|apply nil_app; [intros q [I|[]]; discriminate|exact Wr]]. intros q I. apply in_body in I. destruct I as [I|[[c I]|[c I]]]; discriminate.
  - destruct (made m p); injection T as <- <-; exact Wr.
  - destruct cs as [|c cs].
    + destruct pic; injection T as <- <-; [|exact Wr]. intros q [I|I]; [discriminate|now apply (Wr q)].
    + destruct (made m p); [|injection T as <- <-; exact Wr]. destruct (slot m p c && member p c r); injection T as <- <-; [exact Wr|]. intros q [I|I]; [discriminate|now apply (Wr q)].
  - destruct (var m PE 5); injection T as <- <-; exact Wr.
Qed.
Lemma nil_run D sched : forall s s', (forall th, In th (snd s) -> nil_done D (code th)) -> run sched s = Some s' -> forall th, In th (snd s') -> nil_done D (code th).
Proof.
  induction sched as [|t r IH]; intros s s' N H; [injection H as <-; exact N|]. cbn [Setup.run] in H. destruct (sstep t s) as [s1|] eqn:E; [|discriminate]. apply (IH s1); [|exact H]. unfold Setup.sstep in E. destruct (nth_error (snd s) t) as [th|] eqn:NT; [|discriminate]. destruct (tstep t (fst s) th) as [[m' th']|] eqn:T; [|discriminate]. injection E as <-. cbn [snd].
  intros x I. apply In_nth_error in I. destruct I as (u & NU). destruct (Nat.eq_dec t u) as [<-|NE].
  - rewrite put_same in NU by (apply nth_error_Some; congruence). injection NU as <-. apply (nil_step D t (fst s) th m'); [|exact T]. apply N. now apply nth_error_In in NT.
  - rewrite put_other in NU by exact NE. apply N. now apply nth_error_In in NU.
Qed.
Lemma calls_nil D cs : forallb (new_done D) cs = true -> nil_done D (flat_map expand cs).
Proof.
  induction cs as [|c cs IH]; intros F; [intros p []|]. cbn [forallb flat_map] in *. apply andb_true_iff in F. destruct F as [Fc F]. apply nil_app; [|now apply IH].
  assert (L : forall p pic r, nil_done D (look p pic r)) by (intros p pic r q; unfold look; destruct (r =? 0); intros [I|[]]; discriminate).
  destruct c; cbn [new_done expand] in *; try apply L; try (intros q I; cbn [In] in I; repeat (destruct I as [I|I]; [try discriminate; injection I as <-; exact Fc|]); destruct I; fail).
  apply (nil_app D [Enter PG; Enter PE]); [intros q [I|[I|[]]]; discriminate|]. induction rs as [|r rs IHr]; [intros p []|]. cbn [flat_map]. apply nil_app; [apply L|exact IHr].
Qed.

Lemma after_main cs sched0 m0 th0 gs sched m ths :
  ready [] cs = true -> run sched0 (init [cs]) = Some (m0, [th0]) -> code th0 = [] ->
  (forall g, In g gs -> ready (all_gives cs) g = true) -> run sched (spawn m0 gs) = Some (m, ths) ->
  length ths = length gs /\
  (forall t g th, nth_error gs t = Some g -> nth_error ths t = Some th -> dead th = false /\ prefix (said th) (flat_map answers g) /\ (code th = [] -> said th = flat_map answers g)) /\
  ((forall th, In th ths -> code th = []) \/ exists t s', sstep t (m, ths) = Some s') /\
  ((forall g, In g gs -> forallb (new_done (all_gives cs)) g = true) -> forall t u i j, t <> u -> next (m, ths) t i -> next (m, ths) u j -> ~ conflict i j).
Proof.
  intros R H0 E R2 H. destruct (main_done cs sched0 m0 th0 R H0 E) as (GM0 & DN). pose proof (sinv_run member orderL order_all _ sched _ _ (spawn_inv m0 gs _ GM0 DN R2) H) as SI. pose proof SI as (GM & L & G). cbn [fst snd] in *. rewrite map_length in L. split; [exact L|]. split; [|split].
  - intros t g th NG NT. destruct (G t th NT) as (W & Dd & inner & plain & o & EC & I & RR & S). assert (EN : nth t (map (flat_map answers) gs) [] = flat_map answers g) by (apply nth_error_nth; now rewrite nth_error_map, NG). rewrite EN in S.
    split; [exact Dd|]. split; [eexists; exact S|]. intros C. rewrite C in EC. symmetry in EC. apply app_eq_nil in EC. destruct EC as [_ ->]. cbn in S. now rewrite app_nil_r in S.
  - exact (progress member orderL _ _ SI).
  - intros ND t u i j N NI NJ CF. destruct (races member orderL _ (m, ths) t u i j SI N NI NJ CF) as (p & -> & ->).
    assert (D : once m p = Done).
    { apply (done_run sched p _ _ H). apply DN. destruct NJ as (th & rest & NU & EC). apply nth_error_In in NU. apply (nil_run (all_gives cs) sched (spawn m0 gs) (m, ths)) with (2 := H) (3 := NU); [|rewrite EC; left; reflexivity]. intros x I. cbn [spawn snd] in I. apply in_map_iff in I. destruct I as (g & <- & I). apply (calls_nil (all_gives cs) g). now apply ND. }
    destruct (next_cases member orderL _ (m, ths) t (Make p) SI NI) as [(q & past & left & B & EB & X)|(W & _)]; [|discriminate]. cbn [fst] in B. pose proof (body_concerns orderL _ q past left (LMade p) EB ltac:(left; reflexivity)) as C. cbn in C. congruence.
Qed.
End Tables.
