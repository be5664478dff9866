(* PoolBreakersProofs.v -- grapheme, word and line breakers with one pool answer as the breakers of Grapheme.v, Words.v and Line.v. *)
From Coq Require Import List ZArith Lia Bool.
From Verif Require Import Base PrioQ Recognizer Pool PoolProofs PoolMain PoolBreakers.
From Verif Require Grapheme Words Line.
Import ListNotations.
Open Scope Z_scope.

(* the answers of a breaker to the segmenter, rune by rune *)
Fixpoint answers_of {B} (bstep : B -> Z -> B * Z * list Z) (b : B) (runes : list Z) : list (Z * list Z) :=
  match runes with [] => [] | r :: t => let '(b', lam, ps) := bstep b r in (lam, ps) :: answers_of bstep b' t end.

Section Kinds.
Context (tg tw tl : Z -> Z -> bool) (pict mark : Z -> bool).
Notation begin := (begin_all tg tw tl pict mark).
Notation round := (round step_all begin finish_all).
Notation rounds := (rounds step_all begin finish_all).

Lemma asG_up r : asG (up OfG r) = r.
Proof. destruct r as [e m p n]. unfold asG, up. cbn. now destruct n. Qed.
Lemma asW_up r : asW (up OfW r) = r.
Proof. destruct r as [e m p n]. unfold asW, up. cbn. now destruct n. Qed.
Lemma asL_up r : asL (up OfL r) = r.
Proof. destruct r as [e m p n]. unfold asL, up. cbn. now destruct n. Qed.

Lemma startG e : forall ls p, start ls e p = Grapheme.subscribe ls e p.
Proof. reflexivity. Qed.
Lemma startW e : forall ls p, start ls e p = Words.subscribe ls e p.
Proof. reflexivity. Qed.
Lemma startL e : forall ls p, start ls e p = Line.subscribe ls e p.
Proof. reflexivity. Qed.

Lemma roundG b r x : let c := Grapheme.CodePointClassFor tg pict r in
  round b r (FG (Grapheme.gblk x)) (pmap (up OfG) (Grapheme.gpub x)) =
  option_map (fun '(x', lam, ps) => (FG (Grapheme.gblk x'), pmap (up OfG) (Grapheme.gpub x'), (lam, ps))) (do x1 <- Grapheme.StartRulesFor c x; Grapheme.ProceedWithRune r c x1).
Proof.
  intros c. unfold PoolMain.round, begin_all, Grapheme.StartRulesFor. fold c.
  assert (S : forall l g r0 rune c0, step_all (OfG l) (FG g) (up OfG r0) rune c0 = let '(x', (r', n)) := Grapheme.gstep l g r0 rune c0 in (FG x', (up OfG r', option_map OfG n))) by (intros; cbn [step_all]; now rewrite asG_up).
  assert (K : forall p, (do (g2, long, tot, rel, p2) <- Publish Done (RuneEvent step_all r c) MatchLength (FG (Grapheme.gblk x)) (pmap (up OfG) p); let '(g3, lam, ps) := finish_all b c g2 long tot in Some (g3, p2, (lam, ps))) =
    option_map (fun '(x', lam, ps) => (FG (Grapheme.gblk x'), pmap (up OfG) (Grapheme.gpub x'), (lam, ps))) (Grapheme.ProceedWithRune r c (Grapheme.mkgb p (Grapheme.gblk x)))).
  { intros p. rewrite (Publish_up Grapheme.gstep step_all OfG FG S). unfold Grapheme.ProceedWithRune. cbn [Grapheme.gblk Grapheme.gpub].
    destruct (Publish _ _ _ _ _) as [[[[[g2 long] tot] rel] p2]|]; reflexivity. }
  destruct (Grapheme.is_blocked c (Grapheme.gblk x)); cbn [start obind].
  - rewrite K. destruct x. reflexivity.
  - rewrite start_up, startG. destruct (Grapheme.subscribe _ _ _) as [p|]; cbn [obind option_map]; [apply K|reflexivity].
Qed.
Lemma roundW b r x : let c := Words.CodePointClassFor tw pict r in
  round b r (FW (Words.wlong x) (Words.wsh x)) (pmap (up OfW) (Words.wpub x)) =
  option_map (fun '(x', lam, ps) => (FW (Words.wlong x') (Words.wsh x'), pmap (up OfW) (Words.wpub x'), (lam, ps))) (do x1 <- Words.StartRulesFor c x; Words.ProceedWithRune r c x1).
Proof.
  intros c. unfold PoolMain.round, begin_all, Words.StartRulesFor. fold c.
  assert (S : forall l g r0 rune c0, step_all (OfW l) (FW (Words.wlong x) g) (up OfW r0) rune c0 = let '(x', (r', n)) := Words.wstep l g r0 rune c0 in (FW (Words.wlong x) x', (up OfW r', option_map OfW n))) by (intros; cbn [step_all]; now rewrite asW_up).
  assert (K : forall p, (do (g2, long, tot, rel, p2) <- Publish Done (RuneEvent step_all r c) MatchLength (FW (Words.wlong x) (Words.wsh x)) (pmap (up OfW) p); let '(g3, lam, ps) := finish_all b c g2 long tot in Some (g3, p2, (lam, ps))) =
    option_map (fun '(x', lam, ps) => (FW (Words.wlong x') (Words.wsh x'), pmap (up OfW) (Words.wpub x'), (lam, ps))) (Words.ProceedWithRune r c (Words.mkwb p (Words.wlong x) (Words.wsh x)))).
  { intros p. rewrite (Publish_up Words.wstep step_all OfW (FW (Words.wlong x)) S). unfold Words.ProceedWithRune. cbn [Words.wlong Words.wsh Words.wpub].
    destruct (Publish _ _ _ _ _) as [[[[[g2 long] tot] rel] p2]|]; reflexivity. }
  destruct ((c =? Words.RI) && fst (Words.wsh x)); cbn [start obind].
  - rewrite K. destruct x. reflexivity.
  - rewrite start_up, startW. destruct (Words.subscribe _ _ _) as [p|]; cbn [obind option_map]; [apply K|reflexivity].
Qed.
Lemma roundL b r x :
  round b r (FL (Line.llong x) (Line.lsh x)) (pmap (up OfL) (Line.lpub x)) =
  option_map (fun '(x', lam, ps) => (FL (Line.llong x') (Line.lsh x'), pmap (up OfL) (Line.lpub x'), (lam, ps)))
    (let (x1, c) := Line.CodePointClassFor tl mark r x in do x2 <- Line.StartRulesFor c x1; Line.ProceedWithRune r c x2).
Proof.
  unfold PoolMain.round, begin_all, Line.CodePointClassFor. cbn [Line.lsh Line.llong Line.lpub]. set (c := Line.substitute _ _). set (sh := Line.mksh _ _ _). cbn [Line.lsh].
  unfold Line.StartRulesFor. cbn [Line.lsh Line.llong Line.lpub].
  assert (S : forall l g r0 rune c0, step_all (OfL l) (FL (Line.llong x) g) (up OfL r0) rune c0 = let '(x', (r', n)) := Line.lstep l g r0 rune c0 in (FL (Line.llong x) x', (up OfL r', option_map OfL n))) by (intros; cbn [step_all]; now rewrite asL_up).
  assert (K : forall p, (do (g2, long, tot, rel, p2) <- Publish Done (RuneEvent step_all r c) MatchLength (FL (Line.llong x) sh) (pmap (up OfL) p); let '(g3, lam, ps) := finish_all b c g2 long tot in Some (g3, p2, (lam, ps))) =
    option_map (fun '(x', lam, ps) => (FL (Line.llong x') (Line.lsh x'), pmap (up OfL) (Line.lpub x'), (lam, ps))) (Line.ProceedWithRune r c (Line.mklb p (Line.llong x) sh))).
  { intros p. rewrite (Publish_up Line.lstep step_all OfL (FL (Line.llong x)) S). unfold Line.ProceedWithRune. cbn [Line.llong Line.lsh Line.lpub].
    destruct (Publish _ _ _ _ _) as [[[[[g2 long] tot] rel] p2]|]; reflexivity. }
  destruct ((c =? Line.RI) && Line.blockedRI sh); cbn [start obind].
  - rewrite K. reflexivity.
  - rewrite start_up, startL. destruct (Line.subscribe _ _ _) as [p|]; cbn [obind option_map]; [apply K|reflexivity].
Qed.

Lemma roundsG b : forall runes x g p l, rounds b runes (FG (Grapheme.gblk x)) (pmap (up OfG) (Grapheme.gpub x)) = Some (g, p, l) ->
  l = answers_of (Grapheme.gb_step tg pict) (Some x) runes.
Proof.
  induction runes as [|r t IH]; intros x g p l E; cbn [PoolMain.rounds] in E; [injection E as <- <- <-; reflexivity|].
  pose proof (roundG b r x) as R. cbn zeta in R. rewrite R in E. cbn [answers_of]. unfold Grapheme.gb_step at 1. cbn [obind].
  destruct (do x1 <- Grapheme.StartRulesFor _ _; _) as [[[x' lam] ps]|]; cbn [option_map obind] in E; [|discriminate E].
  destruct (rounds b t _ _) as [[[g2 p2] l2]|] eqn:E2; [|discriminate E]. cbn [obind] in E. injection E as <- <- <-. f_equal. now apply IH in E2.
Qed.
Lemma roundsW b : forall runes x g p l, rounds b runes (FW (Words.wlong x) (Words.wsh x)) (pmap (up OfW) (Words.wpub x)) = Some (g, p, l) ->
  l = answers_of (Words.wb_step tw pict) (Some x) runes.
Proof.
  induction runes as [|r t IH]; intros x g p l E; cbn [PoolMain.rounds] in E; [injection E as <- <- <-; reflexivity|].
  pose proof (roundW b r x) as R. cbn zeta in R. rewrite R in E. cbn [answers_of]. unfold Words.wb_step at 1. cbn [obind].
  destruct (do x1 <- Words.StartRulesFor _ _; _) as [[[x' lam] ps]|]; cbn [option_map obind] in E; [|discriminate E].
  destruct (rounds b t _ _) as [[[g2 p2] l2]|] eqn:E2; [|discriminate E]. cbn [obind] in E. injection E as <- <- <-. f_equal. now apply IH in E2.
Qed.
Lemma roundsL b : forall runes x g p l, rounds b runes (FL (Line.llong x) (Line.lsh x)) (pmap (up OfL) (Line.lpub x)) = Some (g, p, l) ->
  l = answers_of (Line.lb_step tl mark) (Some x) runes.
Proof.
  induction runes as [|r t IH]; intros x g p l E; cbn [PoolMain.rounds] in E; [injection E as <- <- <-; reflexivity|].
  rewrite roundL in E. cbn [answers_of]. unfold Line.lb_step at 1. cbn [obind].
  destruct (Line.CodePointClassFor tl mark r x) as [x1 c]. destruct (do x2 <- Line.StartRulesFor _ _; _) as [[[x' lam] ps]|]; cbn [option_map obind] in E; [|discriminate E].
  destruct (rounds b t _ _) as [[[g2 p2] l2]|] eqn:E2; [|discriminate E]. cbn [obind] in E. injection E as <- <- <-. f_equal. now apply IH in E2.
Qed.

(* the answers of a breaker that is alone, by its kind *)
Definition alone (k : kind) (runes : list Z) : list (Z * list Z) :=
  match k with
  | AGrapheme => answers_of (Grapheme.gb_step tg pict) (Some Grapheme.NewBreaker) runes
  | AWord => answers_of (Words.wb_step tw pict) (Some Words.NewWordBreaker) runes
  | ALine => answers_of (Line.lb_step tl mark) (Some Line.NewLineWrap) runes
  end.
Lemma rounds_made b k runes g p l : rounds b runes (made k) empty_pq = Some (g, p, l) -> l = alone k runes.
Proof.
  destruct k; intros E.
  - exact (roundsG b runes Grapheme.NewBreaker g p l E).
  - exact (roundsW b runes Words.NewWordBreaker g p l E).
  - exact (roundsL b runes Line.NewLineWrap g p l E).
Qed.
End Kinds.
