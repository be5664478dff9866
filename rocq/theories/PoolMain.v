(* PoolMain.v -- rounds of a breaker, and what a breaker answers in a world with a shared pool. *)
From Coq Require Import List ZArith Lia Bool Permutation.
From Verif Require Import Base PrioQ PrioQProofs Recognizer Pool PoolProofs.
Import ListNotations.
Open Scope Z_scope.

Section Rounds.
Context {L G : Type} (step : L -> G -> rec L -> Z -> Z -> G * (rec L * option L)).
Context (begin : nat -> Z -> G -> G * Z * Z * list L) (finish : nat -> Z -> G -> Z -> list Z -> G * Z * list Z).
Notation own := (breaker L G (rec L)).
Notation lsteps := (lsteps step begin finish).
Notation lstep := (lstep step begin finish).

(* Rules are started by subscribing new recognisers. *)
Fixpoint start (ls : list L) (e : Z) (p : @pqueue (rec L)) : option (@pqueue (rec L)) :=
  match ls with [] => Some p | l :: r => do p' <- Push Done p (NewRecognizer e l); start r e p' end.
(* One rune in one go: CodePointClassFor and StartRulesFor, then ProceedWithRune; with Publish of PrioQ.v *)
Definition round (b : nat) (r : Z) (g : G) (p : @pqueue (rec L)) : option (G * @pqueue (rec L) * (Z * list Z)) :=
  let '(g1, c, e, ls) := begin b r g in
  do p1 <- start ls e p;
  do (g2, long, tot, rel, p2) <- Publish Done (RuneEvent step r c) MatchLength g1 p1;
  let '(g3, lam, ps) := finish b c g2 long tot in Some (g3, p2, (lam, ps)).
Fixpoint rounds (b : nat) (runes : list Z) (g : G) (p : @pqueue (rec L)) : option (G * @pqueue (rec L) * list (Z * list Z)) :=
  match runes with
  | [] => Some (g, p, [])
  | r :: t => do (g1, p1, a) <- round b r g p; do (g2, p2, l) <- rounds b t g1 p1; Some (g2, p2, a :: l)
  end.

(* ---- rounds never panic, whatever the rules do ---- *)
Definition fine (p : @pqueue (rec L)) : Prop := Inv Done p /\ alive Done (q p).
Lemma start_fine e : forall ls p, fine p -> exists p', start ls e p = Some p' /\ fine p'.
Proof.
  induction ls as [|l ls IH]; intros p [I A]; cbn [start]; [exists p; split; [|split]; auto|].
  destruct (Push_ok Done p (NewRecognizer e l) I) as (p1 & -> & I1 & P). cbn [obind]. apply IH. split; auto.
  unfold alive. eapply Permutation_Forall; [symmetry; exact P|]. constructor; auto.
Qed.
Lemma round_fine b r g p : fine p -> exists g' p' a, round b r g p = Some (g', p', a) /\ fine p'.
Proof.
  intros F. unfold round. destruct (begin b r g) as [[[g1 c] e] ls]. destruct (start_fine e ls p F) as (p1 & -> & [I A]). cbn [obind].
  destruct (Publish_ok Done (RuneEvent step r c) MatchLength g1 p1 I A) as (g2 & long & tot & rel & p2 & outs & _ & E & P & _ & I2 & _). rewrite E. cbn [obind].
  destruct (finish b c g2 long tot) as [[g3 lam] ps]. exists g3, p2, (lam, ps). split; [reflexivity|]. split; auto.
  unfold alive. eapply Permutation_Forall; [symmetry; exact P|]. apply Forall_forall. intros x Hx. apply filter_In in Hx. destruct Hx as [_ Hx]. now destruct (Done x).
Qed.
Lemma rounds_fine b : forall runes g p, fine p -> exists g' p' l, rounds b runes g p = Some (g', p', l) /\ fine p' /\ length l = length runes.
Proof.
  induction runes as [|r t IH]; intros g p F; cbn [rounds]; [eauto 8|].
  destruct (round_fine b r g p F) as (g1 & p1 & a & -> & F1). cbn [obind]. destruct (IH g1 p1 F1) as (g2 & p2 & l & -> & F2 & E). cbn [obind].
  exists g2, p2, (a :: l). cbn [length]. auto.
Qed.
Lemma fine_empty : fine empty_pq.
Proof. split; [exists [], []; repeat split; constructor|constructor]. Qed.

(* ---- the steps of a breaker make up its rounds ---- *)
Lemma lsteps_app b : forall n m x, lsteps b (n + m) x = match lsteps b n x with Some y => lsteps b m y | None => None end.
Proof. induction n as [|n IH]; intros m x; cbn [Nat.add PoolProofs.lsteps]; auto. destruct (lstep b x); auto. Qed.
Lemma go_start b r c e g t lo to an : forall ls p p1, start ls e p = Some p1 ->
  lsteps b (length ls) (mkb p g t (Starting r c e ls) lo to an) = Some (mkb p1 g t (Starting r c e []) lo to an).
Proof.
  induction ls as [|l ls IH]; intros p p1 E; cbn [start] in E; [injection E as <-; reflexivity|].
  cbn [length PoolProofs.lsteps]. unfold PoolProofs.lstep. cbn [at_ queue state text longest total answers].
  destruct (Push Done p (NewRecognizer e l)) as [p'|]; [|discriminate E]. cbn [obind] in E. apply (IH _ _ E).
Qed.
Lemma go_publish b r c t an : forall n g p lo to g' p' lo' to',
  publish_loop Done (RuneEvent step r c) MatchLength n g p lo to = Some (g', p', lo', to') ->
  lsteps b n (mkb p g t (Publishing r c n) lo to an) = Some (mkb p' g' t (Publishing r c 0) lo' to' an).
Proof.
  induction n as [|n IH]; intros g p lo to g' p' lo' to' E; cbn [publish_loop] in E; [injection E as <- <- <- <-; reflexivity|].
  cbn [PoolProofs.lsteps]. unfold PoolProofs.lstep. cbn [at_ queue state text longest total answers].
  destruct (zget (q p) (Z.of_nat n)) as [s|] eqn:Gs; [|discriminate E]. cbn [obind] in E.
  destruct (RuneEvent step r c g s) as [[g1 s1] pens]. cbn [queue].
  assert (Zs : zset (q p) (Z.of_nat n) s1 = Some (nset (q p) n s1)).
  { unfold zset. unfold zget in Gs. destruct (_ && _); [|discriminate Gs]. now rewrite Nat2Z.id. }
  rewrite Zs in E. cbn [obind] in E. destruct (Fix Done _ _) as [p1|]; [|discriminate E]. cbn [obind] in E. apply (IH _ _ _ _ _ _ _ _ E).
Qed.
Lemma go_release b r c g t lo to an g3 lam ps : finish b c g lo to = (g3, lam, ps) -> forall fuel p rel rel' p',
  release_loop Done fuel p rel = Some (rel', p') ->
  exists n, lsteps b n (mkb p g t (Releasing r c) lo to an) = Some (mkb p' g3 t Idle lo to (an ++ [(lam, ps)])).
Proof.
  intros F. induction fuel as [|f IH]; intros p rel rel' p' E; cbn [release_loop] in E; [discriminate E|].
  destruct (PopDone Done p) as [[[s|] p1]|] eqn:P; cbn [obind] in E; [| |discriminate E].
  - destruct (IH _ _ _ _ E) as [n N]. exists (S n). cbn [PoolProofs.lsteps]. unfold PoolProofs.lstep at 1. cbn [at_ queue state text longest total answers]. rewrite P. exact N.
  - injection E as _ <-. exists 1%nat. cbn [PoolProofs.lsteps]. unfold PoolProofs.lstep. cbn [at_ queue state text longest total answers]. rewrite P, F. reflexivity.
Qed.
Lemma go_round b r t g p lo to an g' p' a : round b r g p = Some (g', p', a) ->
  exists n lo' to', lsteps b n (mkb p g (r :: t) Idle lo to an) = Some (mkb p' g' t Idle lo' to' (an ++ [a])).
Proof.
  unfold round. destruct (begin b r g) as [[[g1 c] e] ls] eqn:B. intros E. destruct (start ls e p) as [p1|] eqn:S1; [|discriminate E]. cbn [obind] in E.
  unfold Publish in E. destruct (publish_loop _ _ _ _ _ _ _ _) as [[[[g2 p2] long] tot]|] eqn:P2; [|discriminate E]. cbn [obind] in E.
  destruct (release_loop _ _ _ _) as [[rel p3]|] eqn:R3; [|discriminate E]. cbn [obind] in E.
  destruct (finish b c g2 long tot) as [[g3 lam] ps] eqn:F. injection E as <- <- <-.
  destruct (go_release b r c g2 t long tot an g3 lam ps F _ _ _ _ _ R3) as [n N].
  exists (1 + (length ls + (1 + (length (q p1) + (1 + n)))))%nat, long, tot.
  rewrite lsteps_app. cbn [PoolProofs.lsteps]. unfold PoolProofs.lstep at 1. cbn [at_ queue state text longest total answers]. rewrite B.
  rewrite lsteps_app, (go_start b r c e g1 t lo to an ls p p1 S1).
  rewrite lsteps_app. cbn [PoolProofs.lsteps]. unfold PoolProofs.lstep at 1. cbn [at_ queue state text longest total answers].
  rewrite lsteps_app, (go_publish b r c t an _ _ _ _ _ _ _ _ _ P2).
  rewrite lsteps_app. cbn [PoolProofs.lsteps]. unfold PoolProofs.lstep at 1. cbn [at_ queue state text longest total answers]. exact N.
Qed.
Lemma go_rounds b : forall runes g p lo to an g' p' l, rounds b runes g p = Some (g', p', l) ->
  exists n lo' to', lsteps b n (mkb p g runes Idle lo to an) = Some (mkb p' g' [] Idle lo' to' (an ++ l)).
Proof.
  induction runes as [|r t IH]; intros g p lo to an g' p' l E; cbn [rounds] in E.
  - injection E as <- <- <-. exists 0%nat, lo, to. rewrite app_nil_r. reflexivity.
  - destruct (round b r g p) as [[[g1 p1] a]|] eqn:R; [|discriminate E]. cbn [obind] in E. destruct (rounds b t g1 p1) as [[[g2 p2] l2]|] eqn:RS; [|discriminate E]. injection E as <- <- <-.
    destruct (go_round b r t g p lo to an _ _ _ R) as (n1 & lo1 & to1 & N1). destruct (IH _ _ lo1 to1 (an ++ [a]) _ _ _ RS) as (n2 & lo2 & to2 & N2).
    exists (n1 + n2)%nat, lo2, to2. rewrite lsteps_app, N1, N2. now rewrite <- app_assoc.
Qed.

(* ---- a breaker cannot leave the way of its rounds ---- *)
Lemma lsteps_end b : forall N n x y z, lsteps b N x = Some z -> lstep b z = None -> lsteps b n x = Some y -> (n <= N)%nat /\ lsteps b (N - n) y = Some z.
Proof.
  induction N as [|N IH]; intros n x y z E D Y; cbn [PoolProofs.lsteps] in E.
  - injection E as ->. destruct n as [|n]; cbn [PoolProofs.lsteps] in Y; [injection Y as ->; auto|]. rewrite D in Y. discriminate Y.
  - destruct n as [|n]; [cbn [PoolProofs.lsteps] in Y; injection Y as ->; split; [lia|exact E]|]. cbn [PoolProofs.lsteps] in Y. destruct (lstep b x) as [x1|]; [|discriminate E].
    destruct (IH n x1 y z E D Y). split; [lia|auto].
Qed.
Lemma lstep_grows b x y : lstep b x = Some y -> exists l, answers y = answers x ++ l.
Proof.
  unfold PoolProofs.lstep. destruct (at_ x) as [|r c e [|l ls]|r c [|i]|r c|]; [destruct (text x); [|destruct (begin _ _ _) as [[[g1 c1] e1] ls1]]| |destruct (Push _ _ _)| |destruct (zget _ _); [destruct (RuneEvent _ _ _ _ _) as [[g1 s1] pens1]; destruct (Fix _ _ _)|]|destruct (PopDone _ _) as [[[s|] p]|]; [|destruct (finish _ _ _ _ _) as [[g1 lam1] ps1]|]|];
  intros E; try discriminate E; injection E as <-; cbn [answers crash]; try (exists []; now rewrite app_nil_r). eauto.
Qed.
Lemma lsteps_grow b : forall n x y, lsteps b n x = Some y -> exists l, answers y = answers x ++ l.
Proof.
  induction n as [|n IH]; intros x y E; cbn [PoolProofs.lsteps] in E; [injection E as ->; exists []; now rewrite app_nil_r|].
  destruct (lstep b x) as [x1|] eqn:S1; [|discriminate E]. destruct (lstep_grows _ _ _ S1) as [l1 E1]. destruct (IH _ _ E) as [l2 E2].
  exists (l1 ++ l2). rewrite E2, E1, <- app_assoc. reflexivity.
Qed.

(* ---- a breaker in a world with a shared pool ---- *)
Definition reached (g0 : nat -> G) (texts : nat -> list Z) (sched : list (nat * nat)) (w : world L G) : Prop := prun step begin finish sched (world0 g0 texts) = Some w.
Definition finished (w : world L G) (b : nat) : Prop := at_ (breakers w b) = Idle /\ text (breakers w b) = [].
Lemma world_ok g0 texts b : exists g p l N, rounds b (texts b) (g0 b) empty_pq = Some (g, p, l) /\ length l = length (texts b) /\
  forall sched w, reached g0 texts sched w ->
    (turns b sched <= N)%nat /\
    (exists rest, l = answers (breakers w b) ++ rest) /\
    at_ (breakers w b) <> Crashed /\
    (turns b sched = N <-> finished w b) /\
    (forall k, pstep step begin finish b k w = None <-> finished w b) /\
    (finished w b -> answers (breakers w b) = l /\ state (breakers w b) = g).
Proof.
  destruct (rounds_fine b (texts b) (g0 b) empty_pq fine_empty) as (g & p & l & R & _ & LEN). destruct (go_rounds b _ _ _ 0 [] [] _ _ _ R) as (N & lo & to & E). cbn [app] in E.
  exists g, p, l, N. split; [exact R|]. split; [exact LEN|]. intros sched w W. destruct (prun_ok step begin finish sched _ _ (ok_world0 g0 texts) W) as [O V]. specialize (V b). rewrite view_world0 in V.
  set (z := mkb p g [] Idle lo to l) in *. assert (D : lstep b z = None) by reflexivity.
  destruct (lsteps_end b N _ _ _ _ E D V) as [LE Z1]. destruct (lsteps_grow b _ _ _ Z1) as [rest GR]. cbn [answers z] in GR. change (answers (view w b)) with (answers (breakers w b)) in GR.
  assert (FV : finished w b <-> lstep b (view w b) = None).
  { split.
    - intros [A T]. unfold PoolProofs.lstep. change (at_ (view w b)) with (at_ (breakers w b)). change (text (view w b)) with (text (breakers w b)). now rewrite A, T.
    - intros H. assert (view w b = z) as Q.
      { destruct (N - turns b sched)%nat; cbn [PoolProofs.lsteps] in Z1; [congruence|]. rewrite H in Z1. discriminate Z1. }
      unfold finished. change (at_ (breakers w b)) with (at_ (view w b)). change (text (breakers w b)) with (text (view w b)). rewrite Q. split; reflexivity. }
  assert (FN : turns b sched = N <-> finished w b).
  { rewrite FV. split; intros H.
    - rewrite H, Nat.sub_diag in Z1. cbn [PoolProofs.lsteps] in Z1. replace (view w b) with z by congruence. exact D.
    - destruct (N - turns b sched)%nat as [|m] eqn:M; [lia|]. cbn [PoolProofs.lsteps] in Z1. rewrite H in Z1. discriminate Z1. }
  split; [exact LE|]. split; [eauto|]. split; [|split; [exact FN|split]].
  - intros C. assert (H : lstep b (view w b) = None) by (unfold PoolProofs.lstep; change (at_ (view w b)) with (at_ (breakers w b)); now rewrite C). apply FV in H. destruct H as [A _]. rewrite C in A. discriminate A.
  - intros k. rewrite FV. pose proof (pstep_ok step begin finish b k w O) as P. destruct (pstep step begin finish b k w) as [w1|].
    + destruct P as (_ & P & _). rewrite P. split; discriminate.
    + split; auto.
  - intros F. apply FN in F. rewrite F, Nat.sub_diag in Z1. cbn [PoolProofs.lsteps] in Z1. assert (Q : view w b = z) by congruence.
    change (answers (breakers w b)) with (answers (view w b)). change (state (breakers w b)) with (state (view w b)). rewrite Q. split; reflexivity.
Qed.
Lemma reached_ok g0 texts sched w : reached g0 texts sched w -> ok w.
Proof. intros W. apply (prun_ok step begin finish sched _ _ (ok_world0 g0 texts) W). Qed.
End Rounds.

(* ---- renaming of state functions and of the state of breakers ---- *)
Section Rename.
Context {L1 G1 L2 G2 : Type} (s1 : L1 -> G1 -> rec L1 -> Z -> Z -> G1 * (rec L1 * option L1)) (s2 : L2 -> G2 -> rec L2 -> Z -> Z -> G2 * (rec L2 * option L2)).
Context (f : L1 -> L2) (g : G1 -> G2).
Definition up (r : rec L1) : rec L2 := mkrec (expect r) (matchLen r) (penalties r) (option_map f (nextStep r)).
Context (S : forall l x r rune c, s2 (f l) (g x) (up r) rune c = let '(x', (r', n)) := s1 l x r rune c in (g x', (up r', option_map f n))).
Lemma up_done r : Done r = Done (up r).
Proof. unfold Done, up. cbn [nextStep]. now destruct (nextStep r). Qed.
Lemma event_up rune c x r : RuneEvent s2 rune c (g x) (up r) = let '(x', r', ps) := RuneEvent s1 rune c x r in (g x', up r', ps).
Proof.
  unfold RuneEvent. cbn [nextStep up]. destruct (nextStep r) as [l|] eqn:N; cbn [option_map].
  - rewrite S. destruct (s1 l x r rune c) as [x' [r' n]]. cbn [expect matchLen penalties up Done nextStep]. now destruct n.
  - rewrite <- up_done. reflexivity.
Qed.
Lemma publish_up rune c : forall n x p lo to,
  publish_loop Done (RuneEvent s2 rune c) MatchLength n (g x) (pmap up p) lo to =
  option_map (fun '(x', p', lo', to') => (g x', pmap up p', lo', to')) (publish_loop Done (RuneEvent s1 rune c) MatchLength n x p lo to).
Proof.
  induction n as [|n IH]; intros x p lo to; cbn [publish_loop]; [reflexivity|].
  cbn [q pmap]. rewrite zget_map. destruct (zget (q p) (Z.of_nat n)) as [s|]; cbn [obind option_map]; [|reflexivity].
  rewrite event_up. destruct (RuneEvent s1 rune c x s) as [[x' s'] ps]. rewrite zset_map. destruct (zset (q p) (Z.of_nat n) s') as [l|]; cbn [obind option_map]; [|reflexivity].
  change (mkpq (map up l) (gap (pmap up p))) with (pmap up (mkpq l (gap p))). rewrite (Fix_map up Done Done up_done). rewrite <- up_done. change (MatchLength (up s')) with (MatchLength s').
  destruct (Fix Done (mkpq l (gap p)) (Z.of_nat n)) as [p'|]; cbn [obind option_map]; [|reflexivity]. apply IH.
Qed.
Lemma release_up : forall fuel p rel,
  release_loop Done fuel (pmap up p) (map up rel) = option_map (fun '(rel', p') => (map up rel', pmap up p')) (release_loop Done fuel p rel).
Proof.
  induction fuel as [|n IH]; intros p rel; cbn [release_loop]; [reflexivity|]. rewrite (PopDone_map up Done Done up_done).
  destruct (PopDone Done p) as [[[s|] p']|]; cbn [obind option_map both fst snd]; [|now rewrite map_rev|reflexivity]. apply (IH p' (s :: rel)).
Qed.
Lemma Publish_up rune c x p :
  Publish Done (RuneEvent s2 rune c) MatchLength (g x) (pmap up p) =
  option_map (fun '(x', lo, to, rel, p') => (g x', lo, to, map up rel, pmap up p')) (Publish Done (RuneEvent s1 rune c) MatchLength x p).
Proof.
  unfold Publish. cbn [q pmap]. rewrite map_length, publish_up. destruct (publish_loop _ _ _ _ _ _ _ _) as [[[[x' p'] lo] to]|]; cbn [obind option_map]; [|reflexivity].
  cbn [q pmap]. rewrite map_length. pose proof (release_up (Datatypes.S (length (q p'))) p' []) as R. cbn [map] in R. rewrite R. clear R. destruct (release_loop Done (Datatypes.S (length (q p'))) p' []) as [[rel p2]|]; reflexivity.
Qed.
Lemma start_up e : forall ls p, start (map f ls) e (pmap up p) = option_map (pmap up) (start ls e p).
Proof.
  induction ls as [|l ls IH]; intros p; cbn [map start]; [reflexivity|]. change (NewRecognizer e (f l)) with (up (NewRecognizer e l)). rewrite (Push_map up Done Done up_done).
  destruct (Push Done p (NewRecognizer e l)) as [p'|]; cbn [obind option_map]; [apply IH|reflexivity].
Qed.
End Rename.
