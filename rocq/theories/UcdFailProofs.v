(* UcdFailProofs.v -- readers that fail, and lines of 64K or more: the parser does not return. *)
From Coq Require Import List ZArith Lia Bool Arith.
From Verif Require Import Base RuneWrite Segmenter Utf8 LineBuf UcdSpec LineBufProofs UcdParse.
Import ListNotations.
Open Scope Z_scope.

(* a stretch of 64K without line feed is coming *)
Definition stretch (s : list Z) : Prop := exists a b c, s = a ++ b ++ c /\ ~ In 10 b /\ MaxToken <= zlen b.
Lemma not_short s : ~ short_lines s -> ~ ~ stretch s.
Proof. intros N NS. apply N. intros a b c E NI. destruct (Z.lt_ge_cases (zlen b) 65536); auto. exfalso. apply NS. exists a, b, c. repeat split; auto. Qed.
Lemma stretch_not_short s : stretch s -> ~ short_lines s.
Proof. intros (a & b & c & E & N & L) SH. specialize (SH a b c E N). unfold MaxToken in L. lia. Qed.

(* the scanner has failed or will fail *)
Definition doomed (b : bufscan) : Prop :=
  (exists x, serr b = Some x /\ x <> EOF) \/ (ending b <> EOF /\ serr b = None) \/ (stretch (held b ++ todo b) /\ serr b = None).
Definition room (b : bufscan) : Prop := zlen (held b) <= MaxToken.

Lemma zlen_firstn {A} (k : nat) (s : list A) : zlen (firstn k s) <= Z.of_nat k.
Proof. unfold zlen. pose proof (firstn_le_length k s). lia. Qed.

Lemma stretch_first h t : In 10 h -> zlen h <= MaxToken -> stretch (h ++ t) -> stretch (snd (first_line h) ++ t).
Proof.
  intros I L (a & b & c & E & N & B).
  assert (IA : In 10 a).
  { destruct (in_dec Z.eq_dec 10 a) as [|NA]; auto. exfalso.
    assert (H : h = firstn (length h) (a ++ b ++ c)) by (rewrite <- E, firstn_app, firstn_all, Nat.sub_diag; cbn; now rewrite app_nil_r).
    rewrite app_assoc, firstn_app in H. unfold zlen in *. replace (length h - length (a ++ b))%nat with 0%nat in H by (rewrite app_length; lia).
    cbn in H. rewrite app_nil_r in H. assert (I2 : In 10 (a ++ b)) by (rewrite H in I; now apply firstn_In in I || (rewrite <- (firstn_skipn (length h) (a ++ b)); apply in_or_app; left; exact I)).
    apply in_app_iff in I2. tauto. }
  assert (X : snd (first_line (h ++ t)) = snd (first_line h) ++ t) by (rewrite first_line_app by assumption; reflexivity).
  rewrite E in X. rewrite first_line_app in X by assumption. cbn [snd] in X. rewrite <- X. now exists (snd (first_line a)), b, c.
Qed.

Lemma scan_doomed : forall n b ok t b', doomed b -> room b -> scan_loop n b = Ok (ok, t, b') ->
  doomed b' /\ room b' /\ (ok = false -> exists x, Err b' = Some x).
Proof.
  induction n as [|n IH]; intros b ok t b' D R; [discriminate|]. cbn [scan_loop].
  (* without a token *)
  assert (MORE : (if stopped b then Ok (false, [], mkbs [] (todo b) (sizes b) (ending b) (serr b))
        else if zlen (held b) =? MaxToken then Ok (false, [], mkbs (held b) (todo b) (sizes b) (ending b) (Some TooLong))
        else scan_loop n (read b)) = Ok (ok, t, b') -> doomed b' /\ room b' /\ (ok = false -> exists x, Err b' = Some x)).
  { intros H. destruct (stopped b) eqn:ST.
    - injection H as <- <- <-. unfold stopped in ST. destruct D as [(x & SX & NX)|[[_ SN]|[_ SN]]]; try (rewrite SN in ST; discriminate).
      split; [left; exists x; auto|]. split; [unfold room, zlen, MaxToken; cbn; lia|]. intros _. exists x. unfold Err. cbn. rewrite SX. destruct x; congruence.
    - destruct (Z.eqb_spec (zlen (held b)) MaxToken) as [E|N].
      + injection H as <- <- <-. split; [left; exists TooLong; cbn; split; [auto|discriminate]|]. split; [exact R|]. intros _. now exists TooLong.
      + apply IH in H; auto.
        * unfold stopped in ST. assert (SN : serr b = None) by (destruct (serr b); congruence).
          unfold read. destruct (todo b) as [|x r] eqn:T.
          -- cbn. destruct (ending b) eqn:EN.
             ++ exfalso. destruct D as [(x & SX & NX)|[[NX _]|[ST2 _]]]; try congruence. rewrite T, app_nil_r in ST2. destruct ST2 as (p & q & r & E & NI & L).
                unfold room in R. rewrite E in R, N. unfold zlen in *. rewrite !app_length in *. lia.
             ++ left. exists Failed. cbn. split; [auto|discriminate].
             ++ left. exists TooLong. cbn. split; [auto|discriminate].
          -- right. cbn [held todo serr ending]. destruct D as [(y & SX & NX)|[[NX _]|[ST2 _]]]; [congruence|left; auto|right]. split; auto.
             rewrite <- app_assoc, firstn_skipn. now rewrite <- T.
        * unfold room, read in *. destruct (todo b) as [|x r] eqn:T; cbn [held]; auto. set (k := match sizes b with _ :: _ => _ | [] => _ end).
          assert (1 <= k <= MaxToken - zlen (held b)) by (unfold k; destruct (sizes b); lia).
          unfold zlen at 1. rewrite app_length, Nat2Z.inj_add. fold (zlen (held b)). pose proof (zlen_firstn (Z.to_nat k) (x :: r)). unfold zlen in *. lia. }
  destruct (Z.ltb_spec 0 (zlen (held b))) as [P|P]; cbn [orb].
  - assert (NE : held b <> []) by (intros E; rewrite E in P; unfold zlen in P; cbn in P; lia).
    destruct (split (held b) (stopped b)) as [k tok] eqn:SP.
    destruct (stopped b) eqn:ST; [|destruct (in_dec Z.eq_dec 10 (held b)) as [I|I]].
    + destruct (split_end (held b) NE) as (k' & E & SK). rewrite SP in E. injection E as -> ->. intros H. injection H as <- <- <-.
      unfold stopped in ST. destruct D as [(x & SX & NX)|[[_ SN]|[_ SN]]]; try (rewrite SN in ST; discriminate).
      split; [left; exists x; auto|]. split; [|discriminate]. unfold room in *. cbn. unfold zlen in *. rewrite skipn_length. lia.
    + rewrite split_same in SP by assumption. destruct (split_end (held b) NE) as (k' & E & SK). rewrite SP in E. injection E as -> ->. intros H. injection H as <- <- <-.
      split; [|split; [|discriminate]].
      * destruct D as [(x & SX & NX)|[[NX SN]|[S2 SN]]]; [left; exists x; auto|right; left; auto|right; right]. cbn [held todo serr]. split; auto.
        rewrite SK. now apply stretch_first.
      * unfold room in *. cbn. unfold zlen in *. rewrite skipn_length. lia.
    + rewrite split_wait in SP by assumption. injection SP as <- <-. cbn [skipn]. destruct b as [h td sz en se]. cbn [held todo sizes ending serr] in *. rewrite ST. exact MORE.
  - assert (E0 : held b = []) by (destruct (held b); auto; unfold zlen in P; cbn in P; lia).
    destruct (stopped b) eqn:ST.
    + destruct (split (held b) true) as [k tok] eqn:SP. rewrite E0 in SP. cbn in SP. injection SP as <- <-. rewrite E0. cbn [skipn]. intros H. apply MORE.
      destruct b as [h td sz en se]. cbn [held todo sizes ending serr] in *. subst h. unfold stopped in *. cbn in *. now rewrite ST in H.
    + exact MORE.
Qed.
Lemma Scan_doomed b ok t b' : doomed b -> room b -> Scan b = Ok (ok, t, b') -> doomed b' /\ room b' /\ (ok = false -> exists x, Err b' = Some x).
Proof. apply scan_doomed. Qed.

(* the line buffer: never at the end *)
Record stuck (buf : linebuf) : Prop := {
  st_in : doomed (Input buf); st_room : room (Input buf); st_eof : isEof buf = 0;
  st_line : match Line buf with None => True | Some (s, _) => s <> [] end }.

Ltac bust H := match type of H with (rbind ?e _) = Ok _ => let E := fresh "E" in destruct e eqn:E; cbn [rbind] in H; [|discriminate H|discriminate H] end.

Lemma size_pos (s : list Z) : s <> [] -> (zlen s =? 0) = false.
Proof. intros N. destruct (Z.eqb_spec (zlen s) 0) as [E|]; auto. destruct s; [congruence|]. unfold zlen in E. cbn in E. lia. Qed.
Lemma stuck_IsEof buf r : stuck buf -> IsEof buf = Ok r -> r = false.
Proof.
  intros [_ _ E L] H. unfold IsEof in H. rewrite E in H. cbn in H. unfold line_size in H. destruct (Line buf) as [[s p]|]; [|discriminate].
  cbn in H. injection H as <-. now apply size_pos.
Qed.
Lemma stuck_line_size buf r : stuck buf -> line_size buf = Ok r -> (r =? 0) = false.
Proof. intros [_ _ E L] H. unfold line_size in H. destruct (Line buf) as [[s p]|]; [|discriminate]. injection H as <-. now apply size_pos. Qed.

Lemma stuck_AdvanceCursor buf e buf' : stuck buf -> AdvanceCursor buf = Ok (e, buf') -> stuck buf'.
Proof.
  intros S H. destruct S as [D R E L]. unfold AdvanceCursor in H. rewrite E in H. cbn [Z.ltb Z.compare] in H. bust H.
  unfold line_size in E0. destruct (Line buf) as [[s p]|] eqn:LN; [|discriminate].
  destruct (a <=? ByteCursor buf); [injection H as <- <-; constructor; cbn; auto; now rewrite LN|].
  unfold readRune in H. rewrite LN in H. destruct (zlen s <=? p); [injection H as <- <-; constructor; auto; now rewrite LN|].
  destruct (DecodeRune _) as [r len]. cbn [rbind] in H. injection H as <- <-. constructor; cbn; auto.
Qed.

Lemma stuck_line_loop : forall n buf e buf', stuck buf -> line_loop n buf = Ok (e, buf') -> stuck buf' /\ (e = None -> Text buf' <> []).
Proof.
  induction n as [|n IH]; intros buf e buf' [D R E L] H; [discriminate|]. cbn [line_loop] in H.
  destruct (Scan (Input buf)) as [[[ok t] inp]| |] eqn:SC; cbn [rbind] in H; try discriminate.
  destruct (Scan_doomed _ _ _ _ D R SC) as (D' & R' & ER). destruct ok; cbn [negb] in H.
  - destruct (IsIgnoredLine t) eqn:IG; cbn [negb] in H.
    + apply IH in H; auto. constructor; auto.
    + injection H as <- <-. split; [constructor; auto|]. intros _ T0. cbn in T0. subst t. discriminate IG.
  - destruct (ER eq_refl) as [x EX]. rewrite EX in H. injection H as <- <-. split; [constructor; auto|discriminate].
Qed.
Lemma stuck_AdvanceLine n buf e buf' : stuck buf -> AdvanceLine n buf = Ok (e, buf') -> stuck buf'.
Proof.
  intros S H. unfold AdvanceLine in H. cbn [isEof] in H. rewrite (st_eof _ S) in H. cbn [Z.eqb] in H.
  set (b0 := mklb _ _ _ _ _ _ _ _ _) in H. assert (S0 : stuck b0) by (destruct S; constructor; auto).
  destruct (line_loop n b0) as [[e1 b1]| |] eqn:LL; cbn [rbind] in H; try discriminate.
  destruct (stuck_line_loop _ _ _ _ S0 LL) as [S1 T]. destruct e1; [injection H as <- <-; auto|].
  apply stuck_AdvanceCursor in H; auto. destruct S1. constructor; auto. cbn. now apply T.
Qed.
Lemma stuck_set_err buf e : stuck buf -> stuck (set_err buf e).
Proof. intros []. constructor; auto. Qed.
Lemma stuck_matches n p buf r buf' : stuck buf -> matches n p buf = Ok (r, buf') -> stuck buf'.
Proof.
  intros S H. unfold matches in H. bust H. rewrite (stuck_IsEof _ _ S E) in H. destruct (LastError buf); [injection H as <- <-; auto|].
  destruct (negb _); [injection H as <- <-; auto|].
  assert (X : forall e b, (if Lookahead buf =? eolMarker then AdvanceLine n buf else AdvanceCursor buf) = Ok (e, b) -> stuck b).
  { intros e b X. destruct (_ =? _); [eapply stuck_AdvanceLine|eapply stuck_AdvanceCursor]; eauto. }
  destruct (if Lookahead buf =? eolMarker then _ else _) as [[e b]| |]; cbn [rbind] in H; try discriminate.
  specialize (X _ _ eq_refl). destruct e as [[]|]; injection H as <- <-; auto. now apply stuck_set_err.
Qed.
Lemma stuck_match_while p : forall n buf k k' buf', stuck buf -> match_while n p buf k = Ok (k', buf') -> stuck buf'.
Proof.
  induction n as [|n IH]; intros buf k k' buf' S H; [discriminate|]. cbn [match_while] in H. destruct (p _); [|injection H as <- <-; auto].
  destruct (matches _ _ buf) as [[r b]| |] eqn:M; cbn [rbind] in H; try discriminate. eapply IH; [|exact H]. eapply stuck_matches; eauto.
Qed.

Section Digits.
Context (isNd : Z -> bool).
Lemma stuck_range n t buf t' s' buf' : stuck buf -> scan_rune_range isNd n t buf = Ok (t', s', buf') -> stuck buf'.
Proof.
  intros S H. unfold scan_rune_range in H. set (marker := if 0 <? ByteCursor buf then _ else _) in H. clearbody marker.
  destruct (match_while n _ buf 0) as [[k b1]| |] eqn:M1; cbn [rbind] in H; try discriminate.
  apply stuck_match_while in M1; auto. bust H.
  assert (X : forall t : token, (let* (dots, buf0) := match_while n (fun la => la =? 46) b1 0 in
      if dots =? 0 then Ok (set_type t singleDataItem, Some ScanItemBody, buf0)
      else let* (_, buf) := match_while n (isHexDigit isNd) buf0 0 in
        let* h := hex_word buf (ByteCursor buf0 - 1) (ByteCursor buf - 1) in
        match h with
        | Some None => Ok (set_error t HexError, None, buf)
        | _ => Ok (set_type (match h with Some (Some c) => set_range t (runeFrom t) c | _ => t end) rangeDataItem, Some ScanItemBody, buf)
        end) = Ok (t', s', buf') -> stuck buf').
  { clear H. intros t0 H. destruct (match_while n (fun la => la =? 46) b1 0) as [[d b2]| |] eqn:M2; cbn [rbind] in H; try discriminate.
    apply stuck_match_while in M2; auto. destruct (d =? 0); [injection H as <- <- <-; auto|].
    destruct (match_while n (isHexDigit isNd) b2 0) as [[d2 b3]| |] eqn:M3; cbn [rbind] in H; try discriminate.
    apply stuck_match_while in M3; auto. bust H. destruct a0 as [[c|]|]; injection H as <- <- <-; auto. }
  destruct a as [[c|]|]; [eapply X; exact H|injection H as <- <- <-; auto|eapply X; exact H].
Qed.
Lemma stuck_body n t buf t' s' buf' : stuck buf -> scan_item_body n t buf = Ok (t', s', buf') -> stuck buf'.
Proof.
  intros S H. unfold scan_item_body in H. destruct (ReadLineRemainder n buf) as [[rest b]| |] eqn:R; cbn [rbind] in H; try discriminate.
  destruct (item_body rest). injection H as <- <- <-. unfold ReadLineRemainder in R. bust R. bust R.
  destruct (AdvanceLine n buf) as [[e b1]| |] eqn:A; cbn [rbind] in R; try discriminate. injection R as <- <-. apply stuck_set_err. eapply stuck_AdvanceLine; eauto.
Qed.
Lemma stuck_step n s t buf t' s' buf' : stuck buf -> run_step isNd n s t buf = Ok (t', s', buf') -> stuck buf'.
Proof.
  intros S H. destruct s; cbn [run_step] in H.
  - unfold scan_file_start in H. bust H. destruct a; injection H as <- <- <-; auto.
  - injection H as <- <- <-; auto.
  - eapply stuck_range; eauto.
  - eapply stuck_body; eauto.
Qed.
Lemma stuck_chain n : forall m sc sc', stuck (Buf sc) -> chain isNd m n sc = Ok sc' -> stuck (Buf sc').
Proof.
  induction m as [|m IH]; intros sc sc' S H; [discriminate|]. cbn [chain] in H. destruct (Step sc) as [s|]; [|injection H as <-; auto].
  destruct (run_step isNd n s (Tok sc) (Buf sc)) as [[[t nx] b]| |] eqn:RS; cbn [rbind] in H; try discriminate.
  apply stuck_step in RS; auto.
  assert (X : forall e, (let* (_, buf) := AdvanceLine n b in Ok (mksc buf nx e t)) = Ok sc' -> stuck (Buf sc')).
  { intros e Y. destruct (AdvanceLine n b) as [[e1 b1]| |] eqn:A; cbn [rbind] in Y; try discriminate. injection Y as <-. eapply stuck_AdvanceLine; eauto. }
  destruct (Error t); try (eapply X; exact H). bust H. rewrite (stuck_line_size _ _ RS E) in H. eapply IH; [|exact H]. auto.
Qed.
Lemma stuck_Next n sc r sc' : stuck (Buf sc) -> Next isNd n sc = Ok (r, sc') -> r = true /\ stuck (Buf sc').
Proof.
  intros S H. unfold Next in H. bust H. rewrite (stuck_IsEof _ _ S E) in H.
  destruct (chain isNd 5 n _) as [sc1| |] eqn:CH; cbn [rbind] in H; try discriminate. injection H as <- <-. split; auto. eapply stuck_chain; [|exact CH]. auto.
Qed.
Lemma stuck_parse n : forall m sc acc r, stuck (Buf sc) -> parse_loop isNd m n sc acc <> Ok r.
Proof.
  induction m as [|m IH]; intros sc acc r S H; [discriminate|]. cbn [parse_loop] in H.
  destruct (Next isNd n sc) as [[ok sc1]| |] eqn:N; cbn [rbind] in H; try discriminate. destruct (stuck_Next _ _ _ _ S N) as [-> S1]. eapply IH; eauto.
Qed.
Lemma parse_doomed n file sizes e r : e <> EOF \/ stretch file -> Parse isNd n (NewScanner file sizes e) <> Ok r.
Proof.
  intros D H. unfold Parse, New, newLineBuffer in H. set (b0 := mklb _ _ _ _ _ _ _ _ _) in H.
  assert (S0 : stuck b0).
  { constructor; cbn; auto.
    - right. cbn. destruct D; [left|right]; auto.
    - unfold room, zlen, MaxToken. cbn. lia. }
  destruct (AdvanceLine n b0) as [[e1 b1]| |] eqn:A; cbn [rbind] in H; try discriminate. apply stuck_AdvanceLine in A; auto.
  assert (S1 : stuck (set_err b1 e1)) by now apply stuck_set_err.
  destruct e1 as [[]|]; cbn [rbind] in H; eapply stuck_parse; try exact H; auto.
Qed.
(* whether a file has such a stretch, classically *)
Lemma parse_long n file sizes r : ~ short_lines file -> Parse isNd n (NewScanner file sizes EOF) <> Ok r.
Proof. intros N H. apply (not_short _ N). intros S. exact (parse_doomed n file sizes EOF r (or_intror S) H). Qed.
End Digits.
