(* LineBufLong.v -- files with a line too long for bufio.Scanner: the lines in front of it are delivered, then the scanner stops. *)
From Coq Require Import List ZArith Lia Bool Arith.
From Verif Require Import Base RuneWrite Segmenter Utf8 LineBuf UcdSpec LineBufProofs.
Import ListNotations.
Open Scope Z_scope.

(* 64K bytes without a line feed come next *)
Definition too_long (s : list Z) : Prop := exists a c, s = a ++ c /\ zlen a = MaxToken /\ ~ In 10 a.
(* nothing, or a text that ends with a line feed *)
Definition closed (s : list Z) : Prop := s = [] \/ exists t, s = t ++ [10].
(* the reader has not ended, or the buffer is not full *)
Definition tight (b : bufscan) : Prop := serr b = None \/ zlen (held b) < MaxToken.

(* Every text is short, or has a first line that is too long. *)
Lemma first_stretch : forall s, (exists a c, s = a ++ c /\ ~ In 10 a /\ (c = [] \/ exists r, c = 10 :: r)).
Proof.
  induction s as [|b s (a & c & E & N & C)]; [exists [], []; repeat split; auto|]. destruct (Z.eq_dec b 10) as [->|NB]; [exists [], (10 :: s); repeat split; eauto|].
  exists (b :: a), c. subst s. repeat split; auto. intros [X|X]; [congruence|auto].
Qed.
Lemma short_nil : short_lines [].
Proof. intros a b c E _. symmetry in E. apply app_eq_nil in E. destruct E as [_ E]. apply app_eq_nil in E. destruct E as [-> _]. now cbv. Qed.
Lemma short_line a s : ~ In 10 a -> zlen a < 65536 -> short_lines s -> short_lines (a ++ 10 :: s).
Proof.
  intros N L SH x y z E NY. destruct (Z.lt_ge_cases (zlen y) 65536) as [|G]; [assumption|]. exfalso.
  destruct (Nat.le_gt_cases (length x) (length a)) as [LX|LX].
  - (* y begins within a: it contains the line feed *)
    assert (LY : (length a < length (x ++ y))%nat) by (rewrite app_length; unfold zlen in *; lia).
    assert (I : nth_error (x ++ y) (length a) = Some 10). { rewrite <- (nth_error_app1 _ z LY), <- app_assoc, <- E, nth_error_app2, Nat.sub_diag by lia. reflexivity. }
    rewrite nth_error_app2 in I by lia. apply nth_error_In in I. contradiction.
  - apply (f_equal (skipn (length a + 1))) in E. rewrite (cut_here (10 :: s) a 1) in E by lia. cbn [skipn] in E.
    rewrite skipn_app in E. replace (length a + 1 - length x)%nat with 0%nat in E by lia. cbn [skipn] in E.
    specialize (SH _ _ _ E NY). lia.
Qed.
Lemma short_or_long : forall n s, (length s <= n)%nat -> short_lines s \/ exists p q, s = p ++ q /\ closed p /\ short_lines p /\ too_long q.
Proof.
  induction n as [|n IH]; intros s L; [destruct s; [left; exact short_nil|cbn in L; lia]|].
  destruct (first_stretch s) as (a & c & -> & N & C). destruct (Z.lt_ge_cases (zlen a) 65536) as [S|G].
  - destruct C as [->|(r & ->)].
    + left. rewrite app_nil_r. intros x y z E _. unfold zlen in *. rewrite E, !app_length in S. lia.
    + rewrite app_length in L. cbn [length] in L. destruct (IH r) as [SR|(p & q & -> & CP & SP & TQ)]; [lia|left; now apply short_line|].
      right. exists (a ++ 10 :: p), q. split; [now rewrite <- app_assoc|]. split; [|split; [now apply short_line|exact TQ]].
      right. destruct CP as [->|(t & ->)]; [now exists a|]. exists (a ++ 10 :: t). now rewrite <- app_assoc.
  - right. exists [], (a ++ c). split; [reflexivity|]. split; [now left|]. split; [exact short_nil|].
    exists (firstn (Z.to_nat MaxToken) a), (skipn (Z.to_nat MaxToken) a ++ c). split; [now rewrite app_assoc, firstn_skipn|]. split.
    + unfold zlen in *. rewrite firstn_length. unfold MaxToken. lia.
    + intros I. apply N. rewrite <- (firstn_skipn (Z.to_nat MaxToken) a). apply in_or_app. now left.
Qed.

Lemma closed_fits p q : closed p -> p <> [] -> short_lines p -> fits (p ++ q).
Proof.
  intros [->|(t & ->)] NE SH a c E L; [congruence|]. destruct (in_dec Z.eq_dec 10 a) as [|N]; [assumption|exfalso].
  destruct (Nat.le_gt_cases (length (t ++ [10])) (length a)) as [G|G].
  - apply (f_equal (firstn (length a))) in E. rewrite (firstn_app (length a) _ q), (firstn_all2 (t ++ [10])) in E by lia. rewrite (firstn_app (length a) a c), firstn_all, Nat.sub_diag in E. cbn [firstn] in E. rewrite app_nil_r in E.
    apply N. rewrite <- E. apply in_or_app. left. apply in_or_app. right. now left.
  - apply (f_equal (firstn (length a))) in E. rewrite (firstn_app (length a) _ q) in E. rewrite (proj2 (Nat.sub_0_le (length a) (length (t ++ [10%Z])))) in E by lia. cbn [firstn] in E. rewrite app_nil_r in E.
    rewrite (firstn_app (length a) a c), firstn_all, Nat.sub_diag in E. cbn [firstn] in E. rewrite app_nil_r in E.
    specialize (SH [] a (skipn (length a) (t ++ [10]))). cbn [app] in SH. rewrite <- E in SH at 1. rewrite firstn_skipn in SH. specialize (SH eq_refl N). unfold MaxToken in L. lia.
Qed.
Lemma closed_In p : closed p -> p <> [] -> In 10 p.
Proof. intros [->|(t & ->)] NE; [congruence|]. apply in_or_app. right. now left. Qed.
Lemma closed_rest p a r : closed p -> p = a ++ r -> closed r.
Proof.
  intros [->|(t & ->)] E; [symmetry in E; apply app_eq_nil in E; destruct E as [_ ->]; now left|]. destruct r as [|x r] using rev_ind; [now left|]. right.
  rewrite app_assoc in E. apply app_inj_tail in E. destruct E as [_ <-]. now exists r.
Qed.

Lemma scan_tight : forall n b ok t b', bs_ok b -> tight b -> scan_loop n b = Ok (ok, t, b') -> ok = true -> tight b'.
Proof.
  induction n as [|n IH]; intros b ok t b' OK T; [discriminate|]. cbn [scan_loop].
  assert (MORE : (if stopped b then Ok (false, [], mkbs [] (todo b) (sizes b) (ending b) (serr b))
        else if zlen (held b) =? MaxToken then Ok (false, [], mkbs (held b) (todo b) (sizes b) (ending b) (Some TooLong))
        else scan_loop n (read b)) = Ok (ok, t, b') -> ok = true -> tight b').
  { destruct (stopped b) eqn:ST; [intros H; injection H as <- <- <-; discriminate|]. destruct (Z.eqb_spec (zlen (held b)) MaxToken) as [E|N]; [intros H; injection H as <- <- <-; discriminate|].
    assert (SN : serr b = None) by (unfold stopped in ST; destruct (serr b); congruence). destruct OK as [OK L]. destruct (read_ok b) as (R1 & _ & _ & R4); [now split|exact SN|lia|].
    apply IH; [exact R1|]. unfold tight. destruct R4 as [[T0 _]|[_ ->]]; [|now left]. right. unfold read. rewrite T0. cbn [held]. lia. }
  destruct ((0 <? zlen (held b)) || stopped b); [|exact MORE]. destruct (split (held b) (stopped b)) as [k [tk|]] eqn:SP.
  - intros H _. injection H as _ _ <-. unfold tight in *. cbn [serr held]. destruct T as [T|T]; [now left|right]. unfold zlen in *. rewrite skipn_length. lia.
  - assert (K : skipn k (held b) = held b).
    { unfold split, ScanLines in SP. destruct (stopped b && (zlen (held b) =? 0)).
      - destruct (lone_CR 0 (held b)); [discriminate|injection SP as <-; reflexivity].
      - destruct (index_byte LF (held b)); [destruct (lone_CR _ (held b)); discriminate|]. destruct (stopped b); [destruct (lone_CR _ (held b)); discriminate|].
        destruct (lone_CR 0 (held b)); [discriminate|injection SP as <-; reflexivity]. }
    rewrite K. destruct b as [h td sz en se]. cbn [held todo sizes ending serr] in *. exact MORE.
Qed.
Lemma scan_long : forall n b, bs_ok b -> tight b -> too_long (pending b) -> (length (todo b) + 1 <= n)%nat ->
  exists b', scan_loop n b = Ok (false, [], b') /\ serr b' = Some TooLong.
Proof.
  induction n as [|n IH]; intros b OK T (a & c & E & L & N) F; [lia|]. cbn [scan_loop]. destruct OK as [OK R].
  assert (LE : MaxToken <= zlen (pending b)) by (rewrite E, zlen_app; pose proof (zlen_nonneg c); lia).
  assert (SN : serr b = None). { destruct T as [T|T]; [exact T|]. destruct OK as [X|[_ TD]]; [exact X|]. exfalso. unfold pending in LE. rewrite TD, app_nil_r in LE. lia. }
  assert (NH : ~ In 10 (held b)).
  { intros I. apply N. unfold pending in E. apply (f_equal (firstn (length a))) in E. rewrite (firstn_app (length a) a), firstn_all, Nat.sub_diag in E. cbn [firstn] in E. rewrite app_nil_r in E. rewrite <- E.
    rewrite firstn_app, (firstn_all2 (held b)) by (unfold zlen in *; lia). apply in_or_app. now left. }
  assert (ST : stopped b = false) by (unfold stopped; now rewrite SN). rewrite ST, orb_false_r.
  assert (MORE : exists b', (if zlen (held b) =? MaxToken then Ok (false, [], mkbs (held b) (todo b) (sizes b) (ending b) (Some TooLong)) else scan_loop n (read b)) = Ok (false, [], b') /\ serr b' = Some TooLong).
  { destruct (Z.eqb_spec (zlen (held b)) MaxToken) as [EM|NM]; [eexists; split; reflexivity|].
    assert (RO : bs_ok b) by (now split). destruct (read_ok b RO SN) as (R1 & R2 & _ & R4); [lia|]. apply IH; [exact R1| |rewrite R2; exists a, c; auto|].
    - unfold tight. destruct R4 as [[T0 _]|[_ ->]]; [|now left]. right. unfold read. rewrite T0. cbn [held]. lia.
    - destruct R4 as [[T0 _]|[X _]]; [|lia]. exfalso. unfold pending in LE. rewrite T0, app_nil_r in LE. lia. }
  destruct (0 <? zlen (held b)); [|exact MORE]. rewrite (split_wait _ NH). cbn iota. cbn [skipn]. destruct b as [h td sz en se]. cbn [held todo sizes ending serr] in *. unfold stopped in *. cbn [serr] in *. rewrite ST. exact MORE.
Qed.

Lemma scan_all_long p ls : lines_of p ls -> forall b n q, bs_ok b -> tight b -> pending b = p ++ q -> closed p -> short_lines p -> too_long q -> (length ls < n)%nat ->
  scan_all n b = Ok (ls, Some TooLong).
Proof.
  induction 1 as [|s l r ls NE FL L IH]; intros b n q OK T P C SH TL N; (destruct n; [lia|]); cbn [scan_all].
  - cbn [app] in P. destruct (scan_long (S (S (length (todo b)))) b OK T) as (b' & E & SE); [now rewrite P|lia|]. unfold Scan. rewrite E. cbn [rbind]. unfold Err. now rewrite SE.
  - destruct (Scan_fits b OK) as (b' & OK' & _ & [(P0 & _)|(P0 & E & P')]); [rewrite P; now apply closed_fits|rewrite P in P0; destruct s; [congruence|discriminate]|].
    assert (T' : tight b') by (now apply (scan_tight _ b _ _ b' OK T E)). rewrite E. cbn [rbind]. rewrite P, (first_line_app s q) in P' by (now apply closed_In). rewrite P, (first_line_app s q) by (now apply closed_In). rewrite FL in *. cbn [fst snd] in *.
    destruct (first_line_suffix s) as [a EA]. rewrite FL in EA. cbn [snd] in EA. rewrite (IH b' n q OK' T' P'); [reflexivity|exact (closed_rest _ _ _ C EA)| |exact TL|cbn [length] in N; lia].
    rewrite EA in SH. now apply short_suffix in SH.
Qed.
Lemma scan_file_long p q ls sizes e n : lines_of p ls -> closed p -> short_lines p -> too_long q -> (length ls < n)%nat ->
  scan_all n (NewScanner (p ++ q) sizes e) = Ok (ls, Some TooLong).
Proof. intros L C SH TL N. apply (scan_all_long p ls L (NewScanner (p ++ q) sizes e) n q); auto; [|now left]. unfold bs_ok, NewScanner. cbn. unfold zlen, MaxToken. cbn. split; [auto|lia]. Qed.
