(* Causal.v -- what a segmenter has done does not depend on input it has not read. *)
From Coq Require Import List ZArith Lia Bool.
From Verif Require Import Base RuneWrite Segmenter.
Import ListNotations.
Open Scope Z_scope.

Section Causal.
Context {Q : Type} (O : qops Q) {B : Type} (bstep : B -> Z -> B * Z * list Z).
Notation state := (state Q B).

(* the state with another reader *)
Definition with_rdr (rd : reader) (s : state) : state :=
  mkS (dq s) (Some rd) (brks s) (rbuf s) (lastp s) (pos s) (boz s) (lam s) (bpos s) (atEOF s) (inUse s) (err s).
Lemma f_bpos rd s : bpos (with_rdr rd s) = bpos s. Proof. reflexivity. Qed.
Lemma f_pos rd s : pos (with_rdr rd s) = pos s. Proof. reflexivity. Qed.
Lemma f_lam rd s : lam (with_rdr rd s) = lam s. Proof. reflexivity. Qed.
Lemma f_dq rd s : dq (with_rdr rd s) = dq s. Proof. reflexivity. Qed.
Lemma f_brks rd s : brks (with_rdr rd s) = brks s. Proof. reflexivity. Qed.
Lemma f_eof rd s : atEOF (with_rdr rd s) = atEOF s. Proof. reflexivity. Qed.
(* The reader has still to deliver pre and then x and the error e, and its end has not been seen. *)
Definition before (pre x : list (Z * Z)) (e : error) (s : state) : Prop := rdr s = Some (mkrd (pre ++ x) e) /\ atEOF s = false.
(* how many runes are left, or nothing if the end has been seen *)
Definition left_over (s : state) : option nat := if atEOF s then None else match rdr s with Some rd => Some (length (items rd)) | None => None end.
Definition at_most (a b : option nat) : Prop := match a, b with None, _ => True | Some _, None => False | Some m, Some n => (m <= n)%nat end.
Lemma at_most_trans a b c : at_most a b -> at_most b c -> at_most a c.
Proof. destruct a, b, c; cbn; try tauto; lia. Qed.
Lemma at_most_refl a : at_most a a.
Proof. destruct a; cbn; auto. Qed.
Definition fewer (s : state) (n : nat) : Prop := match left_over s with None => True | Some m => (m < n)%nat end.
Lemma before_not_fewer pre x e s : before pre x e s -> ~ fewer s (length x).
Proof. intros [R E]. unfold fewer, left_over. rewrite E, R. cbn [items]. rewrite app_length. lia. Qed.
Lemma fewer_at_most s s1 n : fewer s n -> at_most (left_over s1) (left_over s) -> fewer s1 n.
Proof. unfold fewer. destruct (left_over s), (left_over s1); cbn; try tauto; lia. Qed.

(* the reader is only read *)
Lemma readRune_less s d s1 d1 e : readRune O s d = Ok (s1, d1, e) -> at_most (left_over s1) (left_over s).
Proof.
  unfold readRune. intros H. destruct (atEOF s) eqn:E; [injection H as <- _ _; apply at_most_refl|]. destruct (rdr s) as [[its f]|] eqn:R; [|discriminate]. cbn [items fin] in H.
  unfold left_over. rewrite E, R. destruct its as [|[r sz] its].
  - destruct f; [destruct (q_push O d eotAtom); [|discriminate]; cbn [lift rbind] in H|..]; injection H as <- _ _; exact Logic.I.
  - destruct (q_push O d _); [|discriminate]. cbn [lift rbind] in H. injection H as <- _ _. cbn. lia.
Qed.
Lemma readEnough_less : forall fuel s d bound s1 d1 e, readEnough O bstep fuel s d bound = Ok (s1, d1, e) -> at_most (left_over s1) (left_over s).
Proof.
  induction fuel as [|f IH]; intros s d bound s1 d1 e H; cbn [readEnough] in H.
  - destruct (bpos s <? 0); [discriminate|]. injection H as <- _ _. apply at_most_refl.
  - destruct (bpos s <? 0); [|injection H as <- _ _; apply at_most_refl]. destruct (pos s - lam s >? bound); [injection H as <- _ _; apply at_most_refl|].
    destruct (readRune O s d) as [[[s2 d2] e2]| |] eqn:R; [|discriminate..]. cbn [rbind] in H. apply readRune_less in R. destruct e2; [injection H as <- _ _; exact R|].
    destruct (q_last O d2); [|discriminate]. cbn [lift rbind] in H. destruct (feed O bstep false (brks s2) (ar a) 0 d2) as [[[bs lm] d3]| |]; [|discriminate..]. cbn [rbind] in H.
    destruct (findBreakOpportunity O _ _ _ _); [|discriminate..]. cbn [rbind] in H. apply IH in H. exact (at_most_trans _ _ _ H R).
Qed.
Lemma front_rdr (s : state) d bound s1 d1 : getFrontSegment O s d bound = Ok (s1, d1) -> rdr s1 = rdr s /\ atEOF s1 = atEOF s.
Proof.
  unfold getFrontSegment. intros H. destruct (_ <? 0); [discriminate|]. destruct (_ <? 0); [injection H as <- _; auto|].
  destruct (pop_loop O _ d _ _) as [[[d2 w2] l2]| |]; [|discriminate..]. cbn [rbind] in H. destruct (findBreakOpportunity O _ _ _ _); [|discriminate..]. cbn [rbind] in H. injection H as <- _. auto.
Qed.
Lemma left_same (s s1 : state) : rdr s1 = rdr s /\ atEOF s1 = atEOF s -> left_over s1 = left_over s.
Proof. unfold left_over. intros [-> ->]. reflexivity. Qed.

(* ---- the same calls with another rest ---- *)
Context (x y : list (Z * Z)) (ex ey : error).
Notation here s pre := (before pre x ex s).
Notation there s pre := (with_rdr (mkrd (pre ++ y) ey) s).

Lemma readRune_swap s d s1 d1 e pre : here s pre -> readRune O s d = Ok (s1, d1, e) ->
  fewer s1 (length x) \/ exists p pre1, pre = p :: pre1 /\ here s1 pre1 /\ readRune O (there s pre) d = Ok (there s1 pre1, d1, e).
Proof.
  intros [R E] H. unfold readRune in *. cbn [with_rdr atEOF rdr items fin]. rewrite E, R in *. cbn [items fin] in H. destruct pre as [|[r sz] pre].
  - cbn [app] in *. left. destruct x as [|[r sz] x'].
    + destruct ex; [destruct (q_push O d eotAtom); [|discriminate]; cbn [lift rbind] in H|..]; injection H as <- _ _; exact Logic.I.
    + destruct (q_push O d _); [|discriminate]. cbn [lift rbind] in H. injection H as <- _ _. unfold fewer, left_over. cbn. lia.
  - cbn [app] in *. right. exists (r, sz), pre. split; [reflexivity|]. destruct (q_push O d _); [|discriminate]. cbn [lift rbind] in *. injection H as <- <- <-.
    split; [split; reflexivity|]. reflexivity.
Qed.
Lemma find_swap (s : state) d a b rd : findBreakOpportunity O (with_rdr rd s) d a b = findBreakOpportunity O s d a b.
Proof. reflexivity. Qed.
Lemma readEnough_swap : forall fuel s d bound s1 d1 e pre, here s pre -> readEnough O bstep fuel s d bound = Ok (s1, d1, e) ->
  fewer s1 (length x) \/ exists pre1 used, pre = used ++ pre1 /\ here s1 pre1 /\
    forall fuel', (length used < fuel')%nat -> readEnough O bstep fuel' (there s pre) d bound = Ok (there s1 pre1, d1, e).
Proof.
  induction fuel as [|f IH]; intros s d bound s1 d1 e pre Hh H; cbn [readEnough] in H.
  - destruct (bpos s <? 0) eqn:Eb; [discriminate|]. injection H as <- <- <-. right. exists pre, []. split; [reflexivity|]. split; [exact Hh|]. intros fuel' _. destruct fuel'; cbn [readEnough with_rdr bpos]; rewrite Eb; reflexivity.
  - destruct (bpos s <? 0) eqn:Eb.
    + destruct (pos s - lam s >? bound) eqn:Ep.
      * injection H as <- <- <-. right. exists pre, []. split; [reflexivity|]. split; [exact Hh|]. intros [|fuel'] L; [inversion L|]. cbn [readEnough with_rdr bpos pos lam]. rewrite Eb, Ep. reflexivity.
      * destruct (readRune O s d) as [[[s2 d2] e2]| |] eqn:R; [|discriminate..]. cbn [rbind] in H. destruct (readRune_swap s d s2 d2 e2 pre Hh R) as [F|(p & pre2 & -> & H2 & R2)].
        { left. destruct e2; [injection H as <- _ _; exact F|]. destruct (q_last O d2); [|discriminate]. cbn [lift rbind] in H. destruct (feed O bstep false (brks s2) (ar a) 0 d2) as [[[bs lm] d3]| |]; [|discriminate..].
          cbn [rbind] in H. destruct (findBreakOpportunity O _ _ _ _); [|discriminate..]. cbn [rbind] in H. apply readEnough_less in H. exact (fewer_at_most _ _ _ F H). }
        destruct e2.
        { injection H as <- <- <-. right. exists pre2, [p]. split; [reflexivity|]. split; [exact H2|]. intros [|fuel'] L; [inversion L|]. cbn [readEnough]. rewrite f_bpos, f_pos, f_lam, Eb, Ep, R2. reflexivity. }
        destruct (q_last O d2) eqn:Eq; [|discriminate]. cbn [lift rbind] in H. destruct (feed O bstep false (brks s2) (ar a) 0 d2) as [[[bs lm] d3]| |] eqn:Ef; [|discriminate..].
        cbn [rbind] in H. destruct (findBreakOpportunity O s2 d3 _ _) as [bp| |] eqn:Efb; [|discriminate..]. cbn [rbind] in H.
        match type of H with readEnough O bstep f ?s3 _ _ = _ => destruct (IH s3 d3 bound s1 d1 e pre2) as [F|(pre1 & used & -> & H1 & K)]; [exact H2|exact H|left; exact F|] end.
        right. exists pre1, (p :: used). split; [reflexivity|]. split; [exact H1|]. intros [|fuel'] L; [inversion L|]. cbn [readEnough]. rewrite f_bpos, f_pos, f_lam, Eb, Ep, R2. cbn [rbind]. rewrite Eq. cbn [lift rbind]. rewrite f_brks, Ef. cbn [rbind]. rewrite f_pos, find_swap, Efb. cbn [rbind]. cbn [length] in L. apply (K fuel'). lia.
    + injection H as <- <- <-. right. exists pre, []. split; [reflexivity|]. split; [exact Hh|]. intros fuel' _. destruct fuel'; cbn [readEnough with_rdr bpos]; rewrite Eb; reflexivity.
Qed.
Lemma front_swap (s : state) d bound s1 d1 rd : getFrontSegment O s d bound = Ok (s1, d1) -> getFrontSegment O (with_rdr rd s) d bound = Ok (with_rdr rd s1, d1).
Proof.
  unfold getFrontSegment. cbn [with_rdr rbuf pos bpos lam]. intros H. destruct (_ <? 0); [discriminate|]. destruct (_ <? 0); [injection H as <- <-; reflexivity|].
  destruct (pop_loop O _ d _ _) as [[[d2 w2] l2]| |]; [|discriminate..]. cbn [rbind] in *. rewrite find_swap. destruct (findBreakOpportunity O _ _ _ _); [|discriminate..]. cbn [rbind] in *. injection H as <- <-. reflexivity.
Qed.
Lemma next_less bound s b s1 : next O bstep bound s = Ok (b, s1) -> at_most (left_over s1) (left_over s).
Proof.
  unfold next. set (s0 := set_inUse _). assert (E0 : left_over s0 = left_over s) by (unfold s0, left_over; destruct (rdr s) eqn:R; cbn; rewrite R; reflexivity). rewrite <- E0. clearbody s0. clear E0 s.
  intros H. assert (Rf : forall w e, left_over (set_rbuf w (setErr e s0)) = left_over s0) by reflexivity.
  destruct (negb (atEOF s0)).
  - destruct (bpos s0 <? 0); destruct (dq s0) as [d|].
    + destruct (readEnough O bstep (read_fuel s0) s0 d bound) as [[[s2 d2] e2]| |] eqn:R; [|discriminate..]. cbn [rbind] in H. apply readEnough_less in R.
      assert (G : at_most (left_over s1) (left_over s2)); [|exact (at_most_trans _ _ _ G R)].
      destruct e2 as [[]|]; [|injection H as _ <-; apply at_most_refl..|];
        (destruct (_ >? bound); [injection H as _ <-; apply at_most_refl|]; destruct (_ <? 0); [injection H as _ <-; apply at_most_refl|];
         destruct (getFrontSegment O (set_dq d2 s2) d2 bound) as [[s3 d3]| |] eqn:F; [|discriminate..]; cbn [rbind] in H; injection H as _ <-; apply front_rdr, left_same in F;
         change (left_over (set_dq d3 s3)) with (left_over s3); rewrite F; apply at_most_refl).
    + destruct (_ >? bound); [|discriminate]. injection H as _ <-. apply at_most_refl.
    + destruct (_ >? bound); [injection H as _ <-; apply at_most_refl|].
      destruct (getFrontSegment O s0 d bound) as [[s3 d3]| |] eqn:F; [|discriminate..]. cbn [rbind] in H. injection H as _ <-. apply front_rdr, left_same in F.
      change (left_over (set_dq d3 s3)) with (left_over s3). rewrite F. apply at_most_refl.
    + discriminate.
  - destruct (bpos s0 <? 0); [injection H as _ <-; apply at_most_refl|]. destruct (dq s0) as [d|]; [|discriminate].
    destruct (getFrontSegment O s0 d bound) as [[s3 d3]| |] eqn:F; [|discriminate..]. cbn [rbind] in H. injection H as _ <-. apply front_rdr, left_same in F.
    change (left_over (set_dq d3 s3)) with (left_over s3). rewrite F. apply at_most_refl.
Qed.
Lemma next_swap bound s b s1 pre : here s pre -> next O bstep bound s = Ok (b, s1) ->
  fewer s1 (length x) \/ exists pre1 used, pre = used ++ pre1 /\ here s1 pre1 /\ next O bstep bound (there s pre) = Ok (b, there s1 pre1).
Proof.
  intros [R E] H. unfold next in *. cbn [with_rdr rdr]. rewrite R in H.
  assert (H0 : here (set_inUse s) pre) by (split; [exact R|exact E]). change (set_inUse (with_rdr (mkrd (pre ++ y) ey) s)) with (there (set_inUse s) pre).
  set (s0 := set_inUse s) in *. clearbody s0. clear R E s. destruct H0 as [R E].
  rewrite f_eof, f_bpos, f_dq, f_pos, f_lam. rewrite E in *. cbn [negb] in *.
  destruct (bpos s0 <? 0); destruct (dq s0) as [d|].
  - destruct (readEnough O bstep (read_fuel s0) s0 d bound) as [[[s2 d2] e2]| |] eqn:Re; [|discriminate..]. cbn [rbind] in H.
    destruct (readEnough_swap _ _ _ _ _ _ _ pre (conj R E) Re) as [F|(pre1 & used & -> & H2 & K)].
    + left. refine (fewer_at_most s2 s1 _ F _).
      destruct e2 as [[]|]; [|injection H as _ <-; apply at_most_refl..|];
        (destruct (_ >? bound); [injection H as _ <-; apply at_most_refl|]; destruct (_ <? 0); [injection H as _ <-; apply at_most_refl|];
         destruct (getFrontSegment O (set_dq d2 s2) d2 bound) as [[s3 d3]| |] eqn:F'; [|discriminate..]; cbn [rbind] in H; injection H as _ <-; apply front_rdr, left_same in F';
         change (left_over (set_dq d3 s3)) with (left_over s3); rewrite F'; apply at_most_refl).
    + specialize (K (read_fuel (there s0 (used ++ pre1)))). rewrite K; [|unfold read_fuel; cbn [with_rdr rdr items]; rewrite !app_length; lia]. cbn [rbind]. right. exists pre1, used. split; [reflexivity|].
      change (set_dq d2 (there s2 pre1)) with (there (set_dq d2 s2) pre1). rewrite f_pos, f_bpos.
      destruct e2 as [[]|]; [|injection H as <- <-; split; [exact H2|reflexivity]..|];
        (cbn [set_dq pos bpos] in *; destruct (_ >? bound); [injection H as <- <-; split; [exact H2|reflexivity]|]; destruct (_ <? 0); [injection H as <- <-; split; [exact H2|reflexivity]|];
         destruct (getFrontSegment O (set_dq d2 s2) d2 bound) as [[s3 d3]| |] eqn:F'; [|discriminate..]; cbn [rbind] in H; injection H as <- <-;
         pose proof (front_rdr _ _ _ _ _ F') as [F1 F2]; split; [split; [cbn; rewrite F1; exact (proj1 H2)|cbn; rewrite F2; exact (proj2 H2)]|];
         rewrite (front_swap _ _ _ _ _ _ F'); reflexivity).
  - destruct (_ >? bound); [|discriminate]. injection H as <- <-. right. exists pre, []. split; [reflexivity|]. split; [split; [exact R|exact E]|reflexivity].
  - destruct (_ >? bound); [injection H as <- <-; right; exists pre, []; split; [reflexivity|]; split; [split; [exact R|exact E]|reflexivity]|].
    destruct (getFrontSegment O s0 d bound) as [[s3 d3]| |] eqn:F; [|discriminate..]. cbn [rbind] in H. injection H as <- <-. right. exists pre, []. split; [reflexivity|].
    pose proof (front_rdr _ _ _ _ _ F) as [F1 F2]. split; [split; [cbn; congruence|cbn; congruence]|]. rewrite (front_swap _ _ _ _ _ _ F). reflexivity.
  - discriminate.
Qed.
Lemma run_less : forall cs s os s1, run O bstep cs s = Ok (os, s1) -> at_most (left_over s1) (left_over s).
Proof.
  induction cs as [|c cs IH]; intros s os s1 H; cbn [run] in H; [injection H as _ <-; apply at_most_refl|]. unfold exec in H.
  destruct (next O bstep (bound_of c) s) as [[b s2]| |] eqn:N; [|discriminate..]. cbn [rbind] in H. apply next_less in N.
  destruct b; [destruct (Text s2); [|discriminate..]|]; cbn [rbind] in H; (destruct (run O bstep cs s2) as [[os' s3]| |] eqn:R; [|discriminate..]); cbn [rbind] in H; injection H as _ <-; apply IH in R; exact (at_most_trans _ _ _ R N).
Qed.
(* Any calls: what is behind pre could as well be anything else. *)
Lemma run_swap : forall cs s os s1 pre, here s pre -> run O bstep cs s = Ok (os, s1) -> ~ fewer s1 (length x) ->
  exists pre1 used, pre = used ++ pre1 /\ here s1 pre1 /\ run O bstep cs (there s pre) = Ok (os, there s1 pre1).
Proof.
  induction cs as [|c cs IH]; intros s os s1 pre Hh H N; cbn [run] in H |- *; [injection H as <- <-; exists pre, []; auto|]. unfold exec in *.
  destruct (next O bstep (bound_of c) s) as [[b s2]| |] eqn:Nx; [|discriminate..]. cbn [rbind] in H. destruct (next_swap _ _ _ _ _ Hh Nx) as [F|(pre1 & used & -> & H2 & K)].
  - exfalso. apply N. refine (fewer_at_most s2 s1 _ F _). destruct b; [destruct (Text s2); [|discriminate..]|]; cbn [rbind] in H; (destruct (run O bstep cs s2) as [[os' s3]| |] eqn:R; [|discriminate..]); cbn [rbind] in H; injection H as _ <-; exact (run_less _ _ _ _ R).
  - rewrite K. cbn [rbind]. change (Text (there s2 pre1)) with (Text s2).
    destruct b; [destruct (Text s2); [|discriminate..]|]; cbn [rbind] in *; (destruct (run O bstep cs s2) as [[os' s3]| |] eqn:R; [|discriminate..]); cbn [rbind] in H; injection H as <- <-;
      (destruct (IH _ _ _ _ H2 R N) as (pre2 & used2 & -> & H3 & K2)); exists pre2, (used ++ used2); rewrite K2, <- app_assoc; auto.
Qed.
End Causal.
