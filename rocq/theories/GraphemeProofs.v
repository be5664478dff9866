(* GraphemeProofs.v -- the grapheme breaker realises the GB rules except GB9b. *)
From Coq Require Import List ZArith Lia Bool.
From Verif Require Import Base PrioQ Recognizer Grapheme GraphemeSpec BreakSpec Segmenter SegSpec SegProofs SegInv SegFacade BreakFacade.
Import ListNotations.
Open Scope Z_scope.

(* ---- what is left of the past: at most one live recogniser ---- *)
Inductive past := P0 | PCR | PL | PV | PT | PEx (n : Z) | PZ (n : Z) | PRI.
Definition live (p : past) : option (Z * glabel) :=
  match p with
  | P0 => None | PCR => Some (1, CRLF) | PL => Some (1, GB6_next) | PV => Some (1, GB7_next) | PT => Some (1, GB8_next)
  | PEx n => Some (n, GB11Cont) | PZ n => Some (n, GB11Finish) | PRI => Some (0, GB12Cont)
  end.
Definition conc (e : Z) (p : past) : gbreaker :=
  mkgb (match live p with None => mkpq [] 0 | Some (n, l) => mkpq [mkrec e n [] (Some l)] 1 end)
       (match p with PRI => [RI] | _ => [] end).
Definition pnext (p : past) (c : Z) : past :=
  if c =? CR then PCR else if c =? cL then PL else if (c =? cV) || (c =? cLV) then PV
  else if (c =? cLVT) || (c =? cT) then PT else if c =? Pictographic then PEx 0
  else if c =? RI then match p with PRI => P0 | _ => PRI end
  else if c =? Extend then match p with PEx n => PEx (n + 1) | _ => P0 end
  else if c =? ZWJ then match p with PEx n => PZ (n + 1) | _ => P0 end
  else P0.
Definition plam (p : past) : Z := match p with PEx n | PZ n => Z.max 1 n | _ => 1 end.
Definition pjoin (p : past) (c : Z) : Z :=
  match p with
  | PCR => if c =? LF then 30000 else -20000
  | PL => if is_one_of c [cL; cV; cLV; cLVT] then 10000 else 0
  | PV => if is_one_of c [cV; cT] then 10000 else 0
  | PT => if c =? cT then 10000 else 0
  | PZ _ => if c =? Pictographic then 10000 else 0
  | PRI => if c =? RI then 10000 else 0
  | _ => 0
  end.
Definition pfirst (p : past) (c : Z) : Z :=
  (if is_one_of c [LF; Control] then -20000 else if c =? Prepend then 10000 else 0) +
  (match p with PCR => if c =? LF then -20000 else 0 | _ => 0 end).
Definition psecond (p : past) (c : Z) : Z :=
  let s := (if is_one_of c [LF; Control] then -20000 else if is_one_of c [Extend; ZWJ; SpacingMark] then 10000 else 0) + pjoin p c in
  if s =? 0 then -10 else s.
Definition pthird (p : past) (c : Z) : list Z := match p with PCR => if c =? LF then [] else [-20000] | _ => [] end.
Definition ppens (p : past) (c : Z) : list Z := pfirst p c :: psecond p c :: pthird p c.

Definition pvalid (p : past) : Prop := match p with PEx n | PZ n => 0 <= n | _ => True end.
Definition classes : list Z := [0; 1; 2; 3; 4; 5; 6; 7; 8; 9; 10; 11; 12; 13; 999; 1001].

Lemma pnext_valid p c : pvalid p -> pvalid (pnext p c).
Proof.
  intros H. unfold pnext.
  repeat match goal with |- context [if ?b then _ else _] => destruct b end; destruct p; simpl in *; auto; lia.
Qed.

(* one round *)
Lemma round e p r c : pvalid p -> In c classes ->
  exists e', (do b1 <- StartRulesFor c (conc e p); ProceedWithRune r c b1) =
    Some (conc e' (pnext p c), plam (pnext p c), ppens p c).
Proof.
  intros Hv Hc. unfold classes in Hc.
  destruct p as [| | | | |n|n|]; try (destruct n as [|n|n]; [| |simpl in Hv; lia]);
  repeat (destruct Hc as [<-|Hc]; [first [exists e; vm_compute; reflexivity | eexists; vm_compute; reflexivity]|]); contradiction.
Qed.

(* ---- verdicts ---- *)
Definition is_PRI (p : past) : bool := match p with PRI => true | _ => false end.
Definition is_PEx (p : past) : bool := match p with PEx _ => true | _ => false end.
Fixpoint past_of (l : list Z) : past := match l with [] => P0 | c :: t => pnext (past_of t) c end.
Lemma past_valid l : pvalid (past_of l).
Proof. induction l; simpl; auto. now apply pnext_valid. Qed.

Lemma past_PRI : forall l, is_PRI (past_of l) = Nat.odd (ri_run l).
Proof.
  induction l as [|c t IH]; [reflexivity|]. cbn [past_of ri_run]. destruct (Z.eqb_spec c RI) as [->|N].
  - rewrite Nat.odd_succ, <- Nat.negb_odd, <- IH. destruct (past_of t); reflexivity.
  - change (Nat.odd 0) with false. unfold pnext. apply Z.eqb_neq in N. rewrite N.
    repeat match goal with |- context [if ?b then _ else _] => destruct b end; destruct (past_of t); reflexivity.
Qed.
Lemma past_PEx : forall l, is_PEx (past_of l) = pict_extend l.
Proof.
  induction l as [|c t IH]; [reflexivity|]. cbn [past_of pict_extend]. destruct (Z.eqb_spec c Extend) as [->|N].
  - rewrite <- IH. destruct (past_of t); reflexivity.
  - unfold pnext. apply Z.eqb_neq in N. rewrite N. destruct (Z.eqb_spec c Pictographic) as [->|M]; [reflexivity|].
    repeat match goal with |- context [if ?b then _ else _] => destruct b end; destruct (past_of t); reflexivity.
Qed.

Lemma verdict before a c : In a classes -> In c classes ->
  ok_pen (pfirst (past_of before) a + psecond (past_of (a :: before)) c) = gb_boundary false (a :: before) c.
Proof.
  intros Ha Hc. cbn [past_of]. unfold gb_boundary.
  rewrite <- (past_PEx before).
  assert (E : Nat.odd (ri_run (a :: before)) = (a =? RI) && negb (is_PRI (past_of before))).
  { rewrite <- past_PRI. cbn [past_of]. rewrite past_PRI. 
    pose proof (past_PRI (a :: before)) as X. cbn [past_of ri_run] in X. rewrite X. destruct (a =? RI); [|reflexivity].
    rewrite Nat.odd_succ, <- Nat.negb_odd. reflexivity. }
  rewrite E. clear E. generalize (past_of before). intros p. unfold classes in Ha, Hc.
  repeat (destruct Ha as [<-|Ha]; [destruct p; repeat (destruct Hc as [<-|Hc]; [vm_compute; reflexivity|]); contradiction|]).
  contradiction.
Qed.
Lemma verdict_CR p a : In a classes ->
  ok_pen (pfirst p a + psecond (pnext p a) CR) = true /\ ok_pen (pfirst p a + psecond (pnext p a) CR + -20000) = true.
Proof.
  intros Ha. unfold classes in Ha.
  repeat (destruct Ha as [<-|Ha]; [destruct p; split; vm_compute; reflexivity|]). contradiction.
Qed.
Lemma third_CR p c d : pthird (pnext p c) d = [] \/ (c = CR /\ pthird (pnext p c) d = [-20000]).
Proof.
  unfold pnext. destruct (Z.eqb_spec c CR) as [->|].
  - unfold pthird. destruct (d =? LF); auto.
  - left. repeat match goal with |- context [if ?b then _ else _] => destruct b end; destruct p; reflexivity.
Qed.

Section Text.
Context (table : Z -> Z -> bool) (pict : Z -> bool).
Let cls := CodePointClassFor table pict.
Let step := gb_step table pict.

Lemma cls_range r : In (cls r) classes.
Proof.
  unfold cls, CodePointClassFor, ClassForRune. destruct (r =? 0); [simpl; tauto|].
  destruct (find _ _) as [c|] eqn:F.
  - apply find_some in F. destruct F as [F _]. destruct ((c =? Any) && pict r); unfold classes; simpl in *; unfold Pictographic; tauto.
  - simpl. destruct (pict r); simpl; tauto.
Qed.

(* all answers on a text, with the past given *)
Fixpoint ganswers (l rs : list Z) : list answer :=
  match rs with
  | [] => []
  | r :: t => (plam (past_of (cls r :: l)), ppens (past_of l) (cls r)) :: ganswers (cls r :: l) t
  end.
Lemma answers_past : forall rs l e, answers step (Some (conc e (past_of l))) rs = ganswers l rs.
Proof.
  induction rs as [|r t IH]; intros l e; [reflexivity|]. cbn [answers ganswers].
  destruct (round e (past_of l) r (cls r) (past_valid l) (cls_range r)) as (e' & E).
  assert (S : step (Some (conc e (past_of l))) r = (Some (conc e' (past_of (cls r :: l))), plam (past_of (cls r :: l)), ppens (past_of l) (cls r))).
  { unfold step, gb_step. fold cls. cbn [obind]. rewrite E. reflexivity. }
  rewrite S. cbn [fst snd]. now rewrite IH.
Qed.
Lemma answers_new rs : answers step (Some NewBreaker) rs = ganswers [] rs.
Proof. exact (answers_past rs [] 0). Qed.

Lemma ganswers_len : forall rs l, length (ganswers l rs) = length rs.
Proof. induction rs; simpl; auto. Qed.
Lemma ganswers_w : forall rs l, Forall (fun a : answer => (length (snd a) <= 3)%nat) (ganswers l rs).
Proof.
  induction rs as [|r t IH]; intros l; constructor; auto. unfold ppens, pthird. cbn [snd length].
  destruct (past_of l); simpl; try destruct (cls r =? LF); simpl; lia.
Qed.
Lemma ganswers_nth : forall rs l i d, (i < length rs)%nat ->
  nth i (ganswers l rs) d =
  (plam (past_of (map cls (rev (firstn (S i) rs)) ++ l)), ppens (past_of (map cls (rev (firstn i rs)) ++ l)) (cls (nth i rs 0))).
Proof.
  induction rs as [|r t IH]; intros l i d Hi; [simpl in Hi; lia|]. destruct i as [|i]; [reflexivity|].
  cbn [ganswers nth]. rewrite IH by (simpl in Hi; lia).
  change (firstn (S (S i)) (r :: t)) with (r :: firstn (S i) t). change (firstn (S i) (r :: t)) with (r :: firstn i t).
  cbn [rev]. rewrite !map_app, <- !app_assoc. reflexivity.
Qed.

Lemma firstn_S {A} (l : list A) i d : (i < length l)%nat -> firstn (S i) l = firstn i l ++ [nth i l d].
Proof.
  revert i; induction l as [|x l IH]; intros i Hi; [simpl in Hi; lia|]. destruct i; [reflexivity|].
  change (firstn (S (S i)) (x :: l)) with (x :: firstn (S i) l). rewrite IH by (simpl in Hi; lia). reflexivity.
Qed.

(* the classes before position i, nearest first *)
Definition ctx (rs : list Z) (i : nat) : list Z := map cls (rev (firstn i rs)).
Lemma ctx_S rs i : (i < length rs)%nat -> ctx rs (S i) = cls (nth i rs 0) :: ctx rs i.
Proof. intros H. unfold ctx. rewrite (firstn_S rs i 0) by auto. rewrite rev_app_distr. reflexivity. Qed.
Lemma gnth rs i d : (i < length rs)%nat ->
  nth i (ganswers [] rs) d = (plam (past_of (ctx rs (S i))), ppens (past_of (ctx rs i)) (cls (nth i rs 0))).
Proof. intros H. rewrite ganswers_nth by auto. unfold ctx. now rewrite !app_nil_r. Qed.

Lemma pen_0 rs i : (i < length rs)%nat -> pen (ganswers [] rs) i 0 = pfirst (past_of (ctx rs i)) (cls (nth i rs 0)).
Proof. intros H. unfold pen. rewrite Nat.add_0_r, gnth by auto. reflexivity. Qed.
Lemma pen_1 rs i : (S i < length rs)%nat ->
  pen (ganswers [] rs) i 1 = psecond (past_of (cls (nth i rs 0) :: ctx rs i)) (cls (nth (S i) rs 0)).
Proof. intros H. unfold pen. rewrite Nat.add_1_r, gnth by auto. cbn [snd]. rewrite (ctx_S rs i) by lia. reflexivity. Qed.
Lemma pen_2 rs i : (S (S i) < length rs)%nat ->
  pen (ganswers [] rs) i 2 = nth 0 (pthird (pnext (past_of (cls (nth i rs 0) :: ctx rs i)) (cls (nth (S i) rs 0))) (cls (nth (S (S i)) rs 0))) 0.
Proof. intros H. unfold pen. replace (i + 2)%nat with (S (S i)) by lia. rewrite gnth by auto. cbn [snd]. rewrite (ctx_S rs (S i)), (ctx_S rs i) by lia. reflexivity. Qed.
Lemma pen_out rs i d : (length rs <= i + d)%nat -> pen (ganswers [] rs) i d = 0.
Proof. intros H. unfold pen. rewrite (nth_overflow (ganswers [] rs)) by (rewrite ganswers_len; auto). destruct d; reflexivity. Qed.

(* the verdict on a position, with or without the third penalty *)
Lemma position rs i : (S i < length rs)%nat ->
  let v := gb_boundary false (ctx rs (S i)) (cls (nth (S i) rs 0)) in
  ok_pen (pen (ganswers [] rs) i 0 + pen (ganswers [] rs) i 1) = v /\
  ok_pen (pen (ganswers [] rs) i 0 + pen (ganswers [] rs) i 1 + pen (ganswers [] rs) i 2) = v.
Proof.
  intros H v.
  assert (V1 : ok_pen (pen (ganswers [] rs) i 0 + pen (ganswers [] rs) i 1) = v).
  { unfold v. rewrite pen_0, pen_1, ctx_S by lia. apply verdict; apply cls_range. }
  split; auto. destruct (le_lt_dec (length rs) (i + 2)).
  - rewrite (pen_out rs i 2) by auto. rewrite Z.add_0_r. auto.
  - rewrite (pen_2 rs i) by lia.
    destruct (third_CR (past_of (cls (nth i rs 0) :: ctx rs i)) (cls (nth (S i) rs 0)) (cls (nth (S (S i)) rs 0))) as [->|[E ->]].
    + cbn [nth]. rewrite Z.add_0_r. auto.
    + rewrite <- V1, pen_0, pen_1, E by lia. cbn [past_of nth].
      destruct (verdict_CR (past_of (ctx rs i)) (cls (nth i rs 0)) (cls_range _)) as [X Y]. rewrite X, Y. reflexivity.
Qed.

Section OneText.
Context (rs : list Z).
Let an := ganswers [] (rs ++ [0]).
Lemma an_len : length an = S (length rs).
Proof. unfold an. rewrite ganswers_len, app_length. simpl. lia. Qed.
Lemma gmatrix : matrix step [Some NewBreaker] (rs ++ [0]) = map row1 an.
Proof. rewrite matrix_one, answers_new. reflexivity. Qed.

Lemma total3 a i : total a 3 i = pen a i 0 + pen a i 1 + pen a i 2.
Proof. unfold total. cbn. lia. Qed.

Lemma plam_pos p : 1 <= plam p.
Proof. destruct p; simpl; lia. Qed.
Lemma gconforming : conforming (breakable (false, false) false) (inputs rs) (map row1 an).
Proof.
  apply (conforming_one rs an 3); [apply an_len|apply ganswers_w|].
  intros k i Hk Hi Hs. rewrite an_len in Hk.
  assert (L1 : 1 <= fst (nth (k - 1) an (0, []))).
  { unfold an. rewrite gnth by (rewrite app_length; simpl; lia). apply plam_pos. }
  rewrite !total3, !pen_prefix.
  replace (i + 0 <? k)%nat with true by (symmetry; apply Nat.ltb_lt; lia).
  replace (i + 1 <? k)%nat with true by (symmetry; apply Nat.ltb_lt; lia).
  destruct (position (rs ++ [0]) i) as [V1 V2]; [rewrite app_length; simpl; lia|]. fold an in V1, V2.
  destruct (Nat.ltb_spec (i + 2) k); auto. rewrite Z.add_0_r. congruence.
Qed.
Lemma glast : last an (0, []) = (plam (past_of (ctx (rs ++ [0]) (S (length rs)))), ppens (past_of (ctx (rs ++ [0]) (length rs))) eot).
Proof.
  assert (E : last an (0, []) = nth (length rs) an (0, [])).
  { pose proof an_len as L. destruct an as [|x t] eqn:Ea; [simpl in L; lia|].
    rewrite <- (Nat.sub_0_r (length rs)). replace (length rs) with (length (x :: t) - 1)%nat by (rewrite L; lia). rewrite Nat.sub_0_r. apply last_nth. }
  rewrite E. unfold an. rewrite gnth by (rewrite app_length; simpl; lia). rewrite (app_nth2 rs) by lia. rewrite Nat.sub_diag. reflexivity.
Qed.
Lemma an_ne : an <> [].
Proof. intros H. pose proof an_len as L. rewrite H in L. discriminate. Qed.
Lemma geot_safe : eot_safe (map row1 an).
Proof.
  unfold eot_safe. rewrite (last_one an an_ne), glast. cbn [prim sec row1 tl map fold_right snd ppens nth].
  split; [|lia]. unfold pfirst. cbn. destruct (past_of _); lia.
Qed.
Lemma glast1 : longest (last (map row1 an) []) <= 1.
Proof.
  rewrite (last_one an an_ne), glast, longest_one. cbn [fst]. rewrite ctx_S by (rewrite app_length; simpl; lia).
  rewrite (app_nth2 rs) by lia. rewrite Nat.sub_diag. cbn [nth past_of].
  change (cls 0) with eot. destruct (past_of _); vm_compute; discriminate.
Qed.
Lemma gverdict j : (j < length rs)%nat ->
  breakable (false, false) false (eff (inputs rs) (map row1 an) j) =
  match skipn (S j) rs with [] => true | t => gb_break false cls (rev (firstn (S j) rs)) t end.
Proof.
  intros Hj. rewrite (test_pos rs an 3); [|apply ganswers_w|auto]. rewrite total3.
  destruct (position (rs ++ [0]) j) as [_ V2]; [rewrite app_length; simpl; lia|]. fold an in V2. rewrite V2. clear V2.
  assert (C : ctx (rs ++ [0]) (S j) = map cls (rev (firstn (S j) rs))).
  { unfold ctx. rewrite firstn_app. replace (S j - length rs)%nat with 0%nat by lia. cbn [firstn]. now rewrite app_nil_r. }
  rewrite C. destruct (skipn (S j) rs) as [|r t] eqn:Es.
  - assert (length rs <= S j)%nat by (apply (f_equal (@length _)) in Es; rewrite skipn_length in Es; simpl in Es; lia).
    replace (S j) with (length rs) by lia. rewrite app_nth2 by lia. rewrite Nat.sub_diag. cbn [nth]. change (cls 0) with eot.
    unfold gb_boundary. destruct (map cls (rev (firstn (length rs) rs))) as [|a l]; [reflexivity|].
    change (eot =? LF) with false. change (newline_or_control eot) with false. change (is_one_of eot _) with false. change (eot =? cT) with false.
    change (eot =? SpacingMark) with false. change (eot =? Pictographic) with false. change (eot =? RI) with false.
    rewrite !andb_false_r. cbn [andb]. destruct (newline_or_control a); reflexivity.
  - unfold gb_break.
    assert (E : nth (S j) (rs ++ [0]) 0 = r).
    { assert (L : (S j < length rs)%nat) by (apply (f_equal (@length _)) in Es; rewrite skipn_length in Es; simpl in Es; lia).
      rewrite app_nth1 by auto. rewrite <- (firstn_skipn (S j) rs) at 1. rewrite Es. rewrite app_nth2 by (rewrite firstn_length; lia).
      rewrite firstn_length. replace (S j - Nat.min (S j) (length rs))%nat with 0%nat by lia. reflexivity. }
    rewrite E. reflexivity.
Qed.
End OneText.

Lemma grapheme_slice text n : zlen text < MaxInt -> (length text + 1 < n)%nat ->
  exists s1 outs s', InitFromSlice deque_ops text (NewSegmenter [Some NewBreaker]) = Ok s1 /\
    loop deque_ops step n s1 = Ok (outs, true, s') /\ map fst outs = segmentation (gb_break false cls) text /\ Err s' = None.
Proof.
  intros Tt Hn. apply slice_segmentation; auto; rewrite gmatrix.
  - apply gconforming. - apply geot_safe. - apply glast1. - apply gverdict.
Qed.
Lemma grapheme_reader its n : Forall (fun it => 1 <= snd it) its -> sizes its < MaxInt -> (length its + 1 < n)%nat ->
  exists s1 outs s', Init deque_ops (mkrd its EOF) (NewSegmenter [Some NewBreaker]) = Ok s1 /\
    loop deque_ops step n s1 = Ok (outs, true, s') /\
    map fst outs = map (firstn (Z.to_nat 4096)) (segmentation (gb_break false cls) (map fst its)) /\ Err s' = None.
Proof.
  intros Sz Tt Hn. apply reader_segmentation; auto; rewrite gmatrix.
  - apply gconforming. - apply geot_safe. - apply glast1. - apply gverdict.
Qed.
End Text.
