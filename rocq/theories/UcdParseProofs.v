(* UcdParseProofs.v -- the parser of UCD files: termination for every file, and the tokens of
   well-formed files. *)
From Coq Require Import List ZArith Lia Bool Arith.
From Verif Require Import Base RuneWrite Segmenter Utf8 Utf8Proofs LineBuf UcdSpec LineBufProofs UcdParse.
Import ListNotations.
Open Scope Z_scope.

(* ---- the line buffer on a clean reader ---- *)
Definition source (b : bufscan) (ls : list (list Z)) : Prop :=
  bs_ok b /\ ending b = EOF /\ short_lines (pending b) /\ lines_of (pending b) ls.

Lemma source_nil b : source b [] -> exists b', Scan b = Ok (false, [], b') /\ Err b' = None.
Proof.
  intros (OK & E & SH & L). destruct (Scan_ok b OK SH) as (b' & B1 & B2 & [(P & S & P' & SE)|(P & S & P')]).
  - exists b'. split; auto. unfold Err. now rewrite SE, E.
  - inversion L; subst. congruence.
Qed.
Lemma source_cons b l ls : source b (l :: ls) -> exists b', Scan b = Ok (true, l, b') /\ source b' ls.
Proof.
  intros (OK & E & SH & L). destruct (Scan_ok b OK SH) as (b' & B1 & B2 & [(P & S & P' & SE)|(P & S & P')]).
  - rewrite P in L. inversion L; subst. congruence.
  - inversion L as [|? ? ? ? NE FL LR]; subst. rewrite FL in *. cbn [fst snd] in *. exists b'. split; auto.
    split; [assumption|]. split; [congruence|]. rewrite P'. split; [|assumption]. clear S P' P.
    destruct (first_line_suffix (pending b)) as [a A]. rewrite FL in A. cbn [snd] in A. rewrite A in SH. now apply short_suffix in SH.
Qed.
Lemma source_fresh file sizes : short_lines file -> exists ls, source (NewScanner file sizes EOF) ls /\ lines_of file ls.
Proof.
  intros SH. destruct (lines_exist file) as [ls L]. exists ls. split; auto. split; [|split; [reflexivity|split; assumption]].
  split; [now left|]. unfold MaxToken, zlen. cbn. lia.
Qed.

(* the next line with content: how many lines further, the line, and the lines behind it *)
Fixpoint next_item (ls : list (list Z)) : option (Z * list Z * list (list Z)) :=
  match ls with
  | [] => None
  | l :: t => if IsIgnoredLine l then match next_item t with Some (k, x, r) => Some (k + 1, x, r) | None => None end
              else Some (1, l, t)
  end.

Lemma line_loop_ok : forall n buf ls, source (Input buf) ls -> (length ls < n)%nat -> isEof buf = 0 ->
  match next_item ls with
  | None => exists inp t k, line_loop n buf = Ok (Some AtEof, mklb (Lookahead buf) (Cursor buf) (ByteCursor buf) k inp t (Some ([], 0)) 1 (LastError buf))
  | Some (k, l, r) => exists inp, source inp r /\ line_loop n buf = Ok (None, mklb (Lookahead buf) (Cursor buf) (ByteCursor buf) (CurrentLine buf + k) inp l (Line buf) 0 (LastError buf))
  end.
Proof.
  induction n as [|n IH]; intros buf ls SRC LEN E0; [lia|]. destruct ls as [|l ls]; cbn [next_item line_loop].
  - destruct (source_nil _ SRC) as (b' & -> & E). cbn [rbind negb]. rewrite E. eauto.
  - destruct (source_cons _ _ _ SRC) as (b' & -> & SRC'). cbn [rbind negb].
    cbn [Lookahead Cursor ByteCursor CurrentLine Input Text Line isEof LastError].
    destruct (IsIgnoredLine l) eqn:IG; cbn [negb].
    + set (buf' := mklb _ _ _ _ _ _ _ _ _). specialize (IH buf' ls SRC'). cbn in LEN.
      assert (IH' := IH ltac:(lia) E0). unfold buf' in *. cbn [Lookahead Cursor ByteCursor CurrentLine Input Text Line isEof LastError] in IH'.
      destruct (next_item ls) as [[[k x] r]|]; [|exact IH'].
      destruct IH' as (inp & S' & ->). exists inp. split; auto. do 3 f_equal. lia.
    + exists b'. split; auto. now rewrite E0.
Qed.

Lemma decode_size s : s <> [] -> 1 <= snd (DecodeRune s) <= zlen s.
Proof.
  intros NE. destruct s as [|b0 t]; [congruence|]. cbn [DecodeRune]. pose proof (zlen_nonneg t). rewrite zlen_cons.
  destruct (b0 <? 128); [cbn; lia|]. destruct (second b0) as [l h].
  destruct (between 194 223 b0).
  { destruct t as [|b1 t]; [cbn; lia|]. rewrite zlen_cons. pose proof (zlen_nonneg t). destruct (between l h b1); cbn; lia. }
  destruct (between 224 239 b0).
  { destruct t as [|b1 [|b2 t]]; cbn [snd]; try (rewrite ?zlen_cons, ?zlen_nil; lia).
    rewrite !zlen_cons. pose proof (zlen_nonneg t). destruct (_ && _); cbn; lia. }
  destruct (between 240 244 b0).
  { destruct t as [|b1 [|b2 [|b3 t]]]; cbn [snd]; try (rewrite ?zlen_cons, ?zlen_nil; lia).
    rewrite !zlen_cons. pose proof (zlen_nonneg t). destruct (_ && _); cbn; lia. }
  cbn. lia.
Qed.

(* the buffer stands on a line with the lines [ls] to come *)
Record on (buf : linebuf) (l : list Z) (ls : list (list Z)) : Prop := {
  on_text : Text buf = l; on_line : Line buf = Some (l, ByteCursor buf); on_ne : l <> [];
  on_pos : 1 <= ByteCursor buf <= zlen l; on_eof : isEof buf = 0; on_err : LastError buf = None;
  on_src : source (Input buf) ls }.
Definition ended (buf : linebuf) : Prop := isEof buf = 1 /\ Line buf = Some ([], 0).

Lemma ignored_nil l : IsIgnoredLine l = false -> l <> [].
Proof. now intros H ->. Qed.

Lemma next_item_data ls k l r : next_item ls = Some (k, l, r) -> IsIgnoredLine l = false /\ (length r < length ls)%nat.
Proof.
  revert k l r. induction ls as [|x t IH]; cbn; intros k l r H; [discriminate|].
  destruct (IsIgnoredLine x) eqn:IG.
  - destruct (next_item t) as [[[k' l'] r']|]; [|discriminate]. injection H as <- <- <-. destruct (IH _ _ _ eq_refl). split; auto; lia.
  - injection H as <- <- <-. split; auto; lia.
Qed.

Lemma AdvanceLine_ok n buf ls : source (Input buf) ls -> (length ls < n)%nat -> isEof buf = 0 -> LastError buf = None ->
  match next_item ls with
  | None => exists buf', AdvanceLine n buf = Ok (Some AtEof, buf') /\ ended buf'
  | Some (k, l, r) => exists buf', AdvanceLine n buf = Ok (None, buf') /\ on buf' l r /\
      CurrentLine buf' = CurrentLine buf + k /\ Cursor buf' = 1 /\ Lookahead buf' = fst (DecodeRune l) /\ ByteCursor buf' = snd (DecodeRune l)
  end.
Proof.
  intros SRC LEN E0 LE. unfold AdvanceLine. cbn [Lookahead Cursor ByteCursor CurrentLine Input Text Line isEof LastError].
  rewrite E0. change (0 =? 1) with false. change (0 =? 0) with true. cbn iota.
  set (b0 := mklb _ _ _ _ _ _ _ _ _). assert (H := line_loop_ok n b0 ls SRC LEN eq_refl).
  unfold b0 in *. cbn [Lookahead Cursor ByteCursor CurrentLine Input Text Line isEof LastError] in H.
  destruct (next_item ls) as [[[k l] r]|] eqn:NI.
  - destruct H as (inp & S' & ->). cbn [rbind]. cbn [Lookahead Cursor ByteCursor CurrentLine Input Text Line isEof LastError].
    apply next_item_data in NI. destruct NI as [IG _]. apply ignored_nil in IG.
    pose proof (decode_size l IG) as DS. assert (L0 : 0 < zlen l) by lia.
    unfold AdvanceCursor. cbn [Lookahead Cursor ByteCursor CurrentLine Input Text Line isEof LastError line_size rbind].
    change (2 <? 0) with false. cbn iota. destruct (Z.leb_spec (zlen l) 0) as [|_]; [lia|].
    unfold readRune. cbn [Lookahead Cursor ByteCursor CurrentLine Input Text Line isEof LastError].
    destruct (Z.leb_spec (zlen l) 0) as [|_]; [lia|]. change (Z.to_nat 0) with 0%nat. cbn [skipn].
    destruct (DecodeRune l) as [c size] eqn:D. cbn [fst snd] in *. cbn [rbind]. eexists. split; [reflexivity|].
    unfold set_la. cbn [Lookahead Cursor ByteCursor CurrentLine Input Text Line isEof LastError]. split; [|repeat split; lia].
    constructor; cbn [Lookahead Cursor ByteCursor CurrentLine Input Text Line isEof LastError]; auto; lia.
  - destruct H as (inp & t & k & ->). cbn [rbind]. eexists. split; [reflexivity|]. split; reflexivity.
Qed.

Lemma on_IsEof buf l ls : on buf l ls -> IsEof buf = Ok false.
Proof.
  intros O. unfold IsEof, line_size. rewrite (on_eof _ _ _ O), (on_line _ _ _ O). cbn.
  destruct (Z.eqb_spec (zlen l) 0) as [Z0|]; auto. exfalso. apply (on_ne _ _ _ O). apply length_zero_iff_nil. unfold zlen in Z0. lia.
Qed.
Lemma ended_IsEof buf : ended buf -> IsEof buf = Ok true.
Proof. intros [E L]. unfold IsEof, line_size. rewrite E, L. reflexivity. Qed.

(* one step within the line *)
Lemma AdvanceCursor_ok buf l ls : on buf l ls -> exists buf', AdvanceCursor buf = Ok (None, buf') /\ on buf' l ls /\
  CurrentLine buf' = CurrentLine buf /\
  (ByteCursor buf = zlen l /\ ByteCursor buf' = zlen l /\ Lookahead buf' = 10 \/
   ByteCursor buf < zlen l /\ ByteCursor buf' = ByteCursor buf + snd (DecodeRune (skipn (Z.to_nat (ByteCursor buf)) l)) /\
   Lookahead buf' = fst (DecodeRune (skipn (Z.to_nat (ByteCursor buf)) l))).
Proof.
  intros O. pose proof (on_pos _ _ _ O) as P. unfold AdvanceCursor, line_size. rewrite (on_eof _ _ _ O), (on_line _ _ _ O). cbn [Z.ltb Z.compare rbind].
  change (2 <? 0) with false. cbn iota.
  destruct (Z.leb_spec (zlen l) (ByteCursor buf)).
  - eexists. split; [reflexivity|]. unfold set_la. split; [|split; [reflexivity|left; unfold eolMarker; cbn; lia]].
    destruct O. constructor; cbn; auto.
  - unfold readRune. rewrite (on_line _ _ _ O). destruct (Z.leb_spec (zlen l) (ByteCursor buf)); [lia|].
    set (s := skipn _ l). assert (NE : s <> []).
    { intros E. assert (length s = 0%nat) by now rewrite E. unfold s in *. rewrite skipn_length in *. unfold zlen in *. lia. }
    pose proof (decode_size s NE) as DS. assert (SL : zlen s = zlen l - ByteCursor buf).
    { unfold s, zlen. rewrite skipn_length. unfold zlen in *. lia. }
    destruct (DecodeRune s) as [r size]. cbn [fst snd] in *. cbn [rbind]. eexists. split; [reflexivity|]. unfold set_la. cbn.
    split; [|split; [reflexivity|right; lia]]. destruct O. constructor; cbn; auto; lia.
Qed.

Lemma matches_ok n buf l ls : on buf l ls -> Lookahead buf <> 10 -> exists buf', matches n (fun arg => arg =? Lookahead buf) buf = Ok (true, buf') /\ on buf' l ls /\
  AdvanceCursor buf = Ok (None, buf').
Proof.
  intros O N. unfold matches. rewrite (on_IsEof _ _ _ O), (on_err _ _ _ O). cbn [rbind]. rewrite Z.eqb_refl. cbn [negb].
  unfold eolMarker. destruct (Z.eqb_spec (Lookahead buf) 10); [congruence|].
  destruct (AdvanceCursor_ok _ _ _ O) as (buf' & E & O' & _). rewrite E. cbn [rbind]. eauto.
Qed.

(* a loop over the lookahead ends before the end of the line, or at its end marker *)
Lemma match_while_ok p l ls : p 10 = false -> forall n buf k, on buf l ls ->
  (Z.to_nat (zlen l - ByteCursor buf) + (if (Lookahead buf =? 10)%Z then 0 else 1) < n)%nat ->
  exists k' buf', match_while n p buf k = Ok (k', buf') /\ on buf' l ls /\ ByteCursor buf <= ByteCursor buf' /\ CurrentLine buf' = CurrentLine buf.
Proof.
  intros P. induction n as [|n IH]; intros buf k O F; [lia|]. cbn [match_while].
  destruct (p (Lookahead buf)) eqn:PL; [|exists k, buf; split; [auto|split; [auto|split; [lia|auto]]]].
  assert (N : Lookahead buf <> 10) by (intros E; rewrite E in PL; congruence).
  destruct (matches_ok (S n) _ _ _ O N) as (buf1 & -> & O1 & A). cbn [rbind].
  destruct (AdvanceCursor_ok _ _ _ O) as (b2 & A2 & _ & CL & C). rewrite A in A2. injection A2 as <-.
  pose proof (on_pos _ _ _ O) as PO. pose proof (on_pos _ _ _ O1) as PO1.
  destruct (Z.eqb_spec (Lookahead buf) 10); [congruence|].
  destruct (IH buf1 (k + 1) O1) as (k' & buf' & -> & O' & LE & CL').
  - destruct C as [(C1 & C2 & C3)|(C1 & C2 & C3)].
    + rewrite C3. cbn. lia.
    + assert (1 <= snd (DecodeRune (skipn (Z.to_nat (ByteCursor buf)) l))).
      { apply decode_size. intros E. assert (length (skipn (Z.to_nat (ByteCursor buf)) l) = 0%nat) by now rewrite E. rewrite skipn_length in *. unfold zlen in *. lia. }
      destruct (Lookahead buf1 =? 10); lia.
  - exists k', buf'. split; [reflexivity|]. split; [assumption|]. split; [|congruence]. destruct C as [(C1 & C2 & C3)|(C1 & C2 & C3)]; [lia|].
    assert (1 <= snd (DecodeRune (skipn (Z.to_nat (ByteCursor buf)) l))).
    { apply decode_size. intros E. assert (length (skipn (Z.to_nat (ByteCursor buf)) l) = 0%nat) by now rewrite E. rewrite skipn_length in *. unfold zlen in *. lia. }
    lia.
Qed.

Lemma zslice_ok {A} (l : list A) a b : 0 <= a <= b -> b <= zlen l -> exists s, zslice l a b = Some s.
Proof. intros H1 H2. unfold zslice. destruct (Z.leb_spec 0 a), (Z.leb_spec a b), (Z.leb_spec b (zlen l)); try lia. cbn. eauto. Qed.

Section Digits.
Context (isNd : Z -> bool).
Lemma hex_10 : isHexDigit isNd 10 = false. Proof. reflexivity. Qed.

Lemma hex_word_ok buf l ls marker : on buf l ls -> 0 <= marker -> exists h, hex_word buf marker (ByteCursor buf - 1) = Ok h.
Proof.
  intros O M. unfold hex_word. destruct (Z.ltb_spec marker (ByteCursor buf - 1)); eauto. rewrite (on_text _ _ _ O).
  pose proof (on_pos _ _ _ O). destruct (zslice_ok l marker (ByteCursor buf - 1)) as [s ->]; [lia|lia|]. cbn. eauto.
Qed.

Lemma scan_rune_range_ok n t buf l ls : on buf l ls -> (length l + 1 < n)%nat ->
  exists t' s' buf', scan_rune_range isNd n t buf = Ok (t', s', buf') /\ on buf' l ls /\
    (s' = Some ScanItemBody /\ Error t' = Error t \/ s' = None /\ Error t' = HexError).
Proof.
  intros O F. unfold scan_rune_range. pose proof (on_pos _ _ _ O) as P.
  assert (FU : forall b, on b l ls -> (Z.to_nat (zlen l - ByteCursor b) + (if (Lookahead b =? 10)%Z then 0 else 1) < n)%nat).
  { intros b Ob. pose proof (on_pos _ _ _ Ob). unfold zlen in *. destruct (Lookahead b =? 10); lia. }
  destruct (match_while_ok (isHexDigit isNd) l ls hex_10 n buf 0 O (FU _ O)) as (k1 & b1 & -> & O1 & L1 & _). cbn [rbind].
  destruct (hex_word_ok b1 l ls (if 0 <? ByteCursor buf then ByteCursor buf - 1 else ByteCursor buf) O1) as [h ->].
  { destruct (Z.ltb_spec 0 (ByteCursor buf)); lia. }
  cbn [rbind].
  assert (REST : forall t, exists t' s' buf',
    (let* (dots, buf) := match_while n (fun la => la =? 46) b1 0 in
      if dots =? 0 then Ok (set_type t singleDataItem, Some ScanItemBody, buf)
      else
        let marker := ByteCursor buf - 1 in
        let* (_, buf) := match_while n (isHexDigit isNd) buf 0 in
        let* h := hex_word buf marker (ByteCursor buf - 1) in
        match h with
        | Some None => Ok (set_error t HexError, None, buf)
        | _ =>
            let t := match h with Some (Some c) => set_range t (runeFrom t) c | _ => t end in
            Ok (set_type t rangeDataItem, Some ScanItemBody, buf)
        end) = Ok (t', s', buf') /\ on buf' l ls /\ (s' = Some ScanItemBody /\ Error t' = Error t \/ s' = None /\ Error t' = HexError)).
  { clear t. intros t. destruct (match_while_ok (fun la => la =? 46) l ls eq_refl n b1 0 O1 (FU _ O1)) as (k2 & b2 & -> & O2 & L2 & _). cbn [rbind].
    destruct (k2 =? 0). { eexists _, _, b2. split; [reflexivity|]. split; [assumption|]. left. auto. }
    cbv zeta. destruct (match_while_ok (isHexDigit isNd) l ls hex_10 n b2 0 O2 (FU _ O2)) as (k3 & b3 & -> & O3 & L3 & _). cbn [rbind].
    pose proof (on_pos _ _ _ O2).
    destruct (hex_word_ok b3 l ls (ByteCursor b2 - 1) O3) as [h3 ->]; [lia|]. cbn [rbind].
    destruct h3 as [[c|]|]; eexists _, _, b3; (split; [reflexivity|]); (split; [assumption|]); auto. }
  destruct h as [[c|]|].
  - destruct (REST (set_range t c c)) as (t' & s' & buf' & E & O' & D). exists t', s', buf'. auto.
  - eexists _, _, b1. split; [reflexivity|]. split; [assumption|]. right. auto.
  - destruct (REST t) as (t' & s' & buf' & E & O' & D). exists t', s', buf'. auto.
Qed.

(* after a line: the next line with content, or the end *)
Definition advanced (sc : scanner) (ls : list (list Z)) (ln : Z) : Prop :=
  Step sc = None /\
  match next_item ls with
  | None => ended (Buf sc)
  | Some (k, l, r) => on (Buf sc) l r /\ Cursor (Buf sc) = 1 /\ Lookahead (Buf sc) = fst (DecodeRune l) /\ ByteCursor (Buf sc) = snd (DecodeRune l) /\
      CurrentLine (Buf sc) = ln + k
  end.

Lemma remainder_ok n buf l ls : on buf l ls -> (length ls < n)%nat ->
  exists buf', ReadLineRemainder n buf = Ok (EncodeRune (Lookahead buf) ++ skipn (Z.to_nat (ByteCursor buf)) l, buf') /\
    match next_item ls with
    | None => ended buf'
    | Some (k, l, r) => on buf' l r /\ Cursor buf' = 1 /\ Lookahead buf' = fst (DecodeRune l) /\ ByteCursor buf' = snd (DecodeRune l) /\ CurrentLine buf' = CurrentLine buf + k
    end.
Proof.
  intros O F. unfold ReadLineRemainder. rewrite (on_IsEof _ _ _ O). cbn [rbind]. unfold line_size. rewrite (on_line _ _ _ O). cbn [rbind].
  pose proof (on_pos _ _ _ O) as P.
  assert (E : (if ByteCursor buf =? zlen l then Ok (EncodeRune (Lookahead buf))
      else if zlen l <? ByteCursor buf then Ok []
      else let* rest := lift (zslice (Text buf) (ByteCursor buf) (zlen l)) in Ok (EncodeRune (Lookahead buf) ++ rest)) =
      Ok (EncodeRune (Lookahead buf) ++ skipn (Z.to_nat (ByteCursor buf)) l)).
  { destruct (Z.eqb_spec (ByteCursor buf) (zlen l)) as [E|N].
    - rewrite skipn_all2; [now rewrite app_nil_r|unfold zlen in E; lia].
    - destruct (Z.ltb_spec (zlen l) (ByteCursor buf)); [lia|]. rewrite (on_text _ _ _ O). unfold zslice.
      destruct (Z.leb_spec 0 (ByteCursor buf)), (Z.leb_spec (ByteCursor buf) (zlen l)), (Z.leb_spec (zlen l) (zlen l)); try lia. cbn [andb lift rbind].
      rewrite firstn_all2; [reflexivity|]. rewrite skipn_length. unfold zlen in *. lia. }
  rewrite E. cbn [rbind].
  pose proof (AdvanceLine_ok n buf ls (on_src _ _ _ O) F (on_eof _ _ _ O) (on_err _ _ _ O)) as A.
  destruct (next_item ls) as [[[k x] r]|].
  - destruct A as (b' & -> & O' & CL & CU & LA & BC). cbn [rbind]. eexists. split; [reflexivity|]. unfold set_err. cbn.
    split; [|repeat split; assumption]. destruct O'. constructor; auto.
  - destruct A as (b' & -> & EN). cbn [rbind]. eexists. split; [reflexivity|]. destruct EN. split; auto.
Qed.

Lemma chain_S m n sc : chain isNd (S m) n sc = match Step sc with
  | None => Ok sc
  | Some s =>
      let* (t, next, buf) := run_step isNd n s (Tok sc) (Buf sc) in
      match Error t with
      | NoErr =>
          let* size := line_size buf in
          if size =? 0 then Ok (mksc buf next (ScError sc) t) else chain isNd m n (mksc buf next (ScError sc) t)
      | e => let* (_, buf) := AdvanceLine n buf in Ok (mksc buf next e t)
      end
  end.
Proof. reflexivity. Qed.

Lemma on_size buf l ls : on buf l ls -> exists size, line_size buf = Ok size /\ (size =? 0) = false.
Proof.
  intros O. unfold line_size. rewrite (on_line _ _ _ O). eexists. split; [reflexivity|].
  destruct (Z.eqb_spec (zlen l) 0) as [Z0|]; auto. exfalso. apply (on_ne _ _ _ O). apply length_zero_iff_nil. unfold zlen in Z0. lia.
Qed.

Lemma mw_cl p l ls n buf k k' buf' : p 10 = false -> on buf l ls -> match_while n p buf k = Ok (k', buf') -> CurrentLine buf' = CurrentLine buf.
Proof.
  intros P. revert buf k. induction n as [|n IH]; intros buf k O; [discriminate|]. cbn [match_while].
  destruct (p (Lookahead buf)) eqn:PL; [|intros H; injection H as <- <-; auto].
  assert (N : Lookahead buf <> 10) by (intros E; rewrite E in PL; congruence).
  destruct (matches_ok (S n) _ _ _ O N) as (buf1 & -> & O1 & A). cbn [rbind].
  destruct (AdvanceCursor_ok _ _ _ O) as (b2 & A2 & _ & CL & C). rewrite A in A2. injection A2 as <-.
  intros H. rewrite <- CL. eauto.
Qed.

(* one item line, whatever it contains *)
Lemma item_ok_gen n sc l ls : on (Buf sc) l ls -> Step sc = None -> (length l + 1 < n)%nat -> (length ls < n)%nat ->
  exists sc' ln, Next isNd n sc = Ok (true, sc') /\ advanced sc' ls ln.
Proof.
  intros O ST F1 F2. unfold Next. rewrite (on_IsEof _ _ _ O). cbn [rbind]. rewrite ST.
  set (tk := newScannerToken _ _).
  rewrite chain_S. cbn [Step run_step rbind Tok Buf Error newScannerToken]. replace (Error tk) with NoErr by reflexivity.
  destruct (on_size _ _ _ O) as (size & -> & SZ). cbn [rbind]. rewrite SZ. cbn [ScError].
  rewrite chain_S. cbn [Step run_step Tok Buf].
  destruct (scan_rune_range_ok n tk (Buf sc) l ls O F1) as (t' & s' & b' & -> & O' & D). cbn [rbind].
  destruct D as [[-> E]|[-> E]]; rewrite E.
  - replace (Error tk) with NoErr by reflexivity. destruct (on_size _ _ _ O') as (size' & -> & SZ'). cbn [rbind]. rewrite SZ'. cbn [ScError].
    rewrite chain_S. cbn [Step run_step Tok Buf]. unfold scan_item_body.
    destruct (remainder_ok n b' l ls O' F2) as (b2 & -> & A). cbn [rbind].
    destruct (item_body _) as [fs cm]. cbn [rbind Error]. rewrite E. replace (Error tk) with NoErr by reflexivity.
    unfold advanced. destruct (next_item ls) as [[[k x] r]|].
    + destruct (on_size _ _ _ (proj1 A)) as (size2 & -> & SZ2). cbn [rbind]. rewrite SZ2. rewrite chain_S. cbn [Step ScError].
      cbn [rbind]. eexists _, (CurrentLine b'). split; [reflexivity|]. cbn [Step Buf]. auto.
    + destruct A as [A1 A2]. unfold line_size. rewrite A2. cbn [rbind]. change (zlen [] =? 0) with true. cbn iota. cbn [rbind].
      eexists _, 0. split; [reflexivity|]. split; auto. split; auto.
  - pose proof (AdvanceLine_ok n b' ls (on_src _ _ _ O') F2 (on_eof _ _ _ O') (on_err _ _ _ O')) as A.
    unfold advanced. destruct (next_item ls) as [[[k x] r]|].
    + destruct A as (b2 & -> & O2 & A). cbn [rbind]. eexists _, (CurrentLine b'). split; [reflexivity|]. cbn [Step Buf]. tauto.
    + destruct A as (b2 & -> & O2). cbn [rbind]. eexists _, 0. split; [reflexivity|]. cbn [Step Buf]. tauto.
Qed.
End Digits.
