(* UcdExact.v -- the tokens of every UCD file, well-formed or not: one for each line with content, computed from
   this line alone. *)
From Coq Require Import List ZArith Lia Bool Arith.
From Verif Require Import Base RuneWrite Segmenter Utf8 Utf8Proofs LineBuf UcdSpec LineBufProofs UcdParse UcdParseProofs UcdItemProofs UcdFileProofs.
Import ListNotations.
Open Scope Z_scope.

(* ---- what a line says ---- *)
(* The lines with content and their numbers. *)
Fixpoint numbered (k : Z) (ls : list (list Z)) : list (Z * list Z) :=
  match ls with
  | [] => []
  | l :: t => if IsIgnoredLine l then numbered (k + 1) t else (k, l) :: numbered (k + 1) t
  end.
(* The first character of a rest of a line (a newline, if there is none), and what is behind it. *)
Definition la (s : list Z) : Z := match s with [] => 10 | _ => fst (DecodeRune s) end.
Definition past (s : list Z) : list Z := match s with [] => [] | _ => skipn (Z.to_nat (snd (DecodeRune s))) s end.
(* The rest behind the characters with a property. *)
Fixpoint drop (p : Z -> bool) (m : nat) (s : list Z) : list Z :=
  match m with O => s | S m' => if p (la s) then drop p m' (past s) else s end.
Definition skip (p : Z -> bool) (s : list Z) : list Z := drop p (length s) s.
(* The number between two rests [s] and [s'] of a line: from the last byte of the first character of [s] to the last byte but one of
   the first character of [s'].  None: there is none; Some None: it is not a number. *)
Definition passed (l s : list Z) : Z := zlen l - zlen (past s).
Definition number (l s s' : list Z) : option (option Z) :=
  let a := passed l s - 1 in
  let z := passed l s' - 1 in
  if a <? z then Some (ParseInt (firstn (Z.to_nat (z - a)) (skipn (Z.to_nat a) l))) else None.
Definition bad (x : option (option Z)) : bool := match x with Some None => true | _ => false end.
Definition value (x : option (option Z)) (d : Z) : Z := match x with Some (Some c) => c | _ => d end.
(* The token of a line with fields and comment in its rest [s]. *)
Definition item_token (k : Z) (ty : toktype) (a b : Z) (s : list Z) : token :=
  let rest := EncodeRune (la s) ++ past s in mktok k 1 ty a b (fst (item_body rest)) (snd (item_body rest)) NoErr.
Definition dot (r : Z) : bool := r =? 46.

Section Digits.
Context (isNd : Z -> bool).
Definition line_token (x : Z * list Z) : token :=
  let (k, l) := x in
  let s1 := skip (isHexDigit isNd) l in
  let from := number l l s1 in
  let s2 := skip dot s1 in
  let s3 := skip (isHexDigit isNd) s2 in
  let to := number l s2 s3 in
  if bad from then mktok k 1 undefined 0 0 [] [] HexError
  else if negb (dot (la s1)) then item_token k singleDataItem (value from 0) (value from 0) s1
  else if bad to then mktok k 1 undefined (value from 0) (value from 0) [] [] HexError
  else item_token k rangeDataItem (value from 0) (value to (value from 0)) s3.
(* The tokens of a file: one for the document, which takes the place of the first line if this is indented, then those of the lines. *)
Definition file_tokens (ls : list (list Z)) : list token :=
  match numbered 1 ls with
  | [] => []
  | (k, l) :: r => if la l =? 32 then mktok k 1 docRoot 0 0 [] [] Indented :: map line_token r
                   else mktok k 1 docRoot 0 0 [] [] NoErr :: map line_token ((k, l) :: r)
  end.
(* The last error of a list of tokens. *)
Definition last_error (ts : list token) : tokerr := fold_left (fun e t => match Error t with NoErr => e | e' => e' end) ts NoErr.

(* ---- rests of a line ---- *)
Lemma suffix_skip (p q : list Z) : skipn (Z.to_nat (zlen (p ++ q) - zlen q)) (p ++ q) = q.
Proof. rewrite zlen_app. replace (Z.to_nat (zlen p + zlen q - zlen q)) with (length p + 0)%nat by (unfold zlen; lia). now rewrite skipn_plus. Qed.
Lemma past_split s : s <> [] -> exists a, s = a ++ past s /\ zlen a = snd (DecodeRune s).
Proof.
  intros NE. pose proof (decode_size s NE) as D. exists (firstn (Z.to_nat (snd (DecodeRune s))) s). unfold past. destruct s as [|b t]; [congruence|].
  split; [now rewrite firstn_skipn|]. unfold zlen in *. rewrite firstn_length. lia.
Qed.
Lemma past_len s : s <> [] -> zlen (past s) = zlen s - snd (DecodeRune s).
Proof. intros NE. destruct (past_split s NE) as (a & E & L). rewrite E at 2. rewrite zlen_app. lia. Qed.
Lemma past_shorter s : s <> [] -> (length (past s) < length s)%nat.
Proof. intros NE. pose proof (past_len s NE). pose proof (decode_size s NE). unfold zlen in *. lia. Qed.
Lemma drop_fuel p : p 10 = false -> forall m m' s, (length s <= m)%nat -> (length s <= m')%nat -> drop p m s = drop p m' s.
Proof.
  intros P. assert (N : forall m, drop p m [] = []). { intros [|m]; [reflexivity|]. cbn [drop la]. now rewrite P. }
  induction m as [|m IH]; intros m' s L L'.
  - destruct s; [|cbn in L; lia]. now rewrite !N.
  - destruct s as [|b t]; [now rewrite !N|]. destruct m' as [|m']; [cbn in L'; lia|]. cbn [drop]. destruct (p (la (b :: t))); [|reflexivity].
    pose proof (past_shorter (b :: t) ltac:(discriminate)). apply IH; lia.
Qed.

(* the buffer stands at the beginning of the rest [s] of the line *)
Record at_rest (buf : linebuf) (l s : list Z) (ls : list (list Z)) : Prop := {
  ar_on : on buf l ls; ar_split : exists p, l = p ++ s; ar_la : Lookahead buf = la s; ar_pos : ByteCursor buf = passed l s }.

Lemma rest_step n buf l s ls p : at_rest buf l s ls -> p 10 = false -> p (la s) = true ->
  exists buf', matches n (fun arg => arg =? la s) buf = Ok (true, buf') /\ at_rest buf' l (past s) ls /\ CurrentLine buf' = CurrentLine buf.
Proof.
  intros [O (q & E) L P] P10 PL. assert (NE : s <> []) by (intros ->; cbn in PL; congruence). assert (N : la s <> 10) by (intros X; rewrite X in PL; congruence).
  rewrite <- L in *. destruct (matches_ok n _ _ _ O N) as (b1 & -> & O1 & A). exists b1. split; [reflexivity|].
  destruct (AdvanceCursor_ok _ _ _ O) as (b2 & A2 & _ & CL & C). rewrite A in A2. injection A2 as <-. split; [|exact CL].
  destruct (past_split s NE) as (a & E2 & _). assert (E3 : l = (q ++ a) ++ past s) by (rewrite <- app_assoc, <- E2; exact E).
  assert (SK : skipn (Z.to_nat (ByteCursor buf)) l = past s). { rewrite P. unfold passed. rewrite E3. apply suffix_skip. }
  constructor; [exact O1|exists (q ++ a); exact E3| |]; destruct C as [(C1 & C2 & C3)|(C1 & C2 & C3)].
  - rewrite C3. unfold passed in P. destruct (past s); [reflexivity|]. rewrite zlen_cons in P. pose proof (zlen_nonneg l0). lia.
  - rewrite C3, SK. unfold passed in P. destruct (past s) eqn:EP; [|reflexivity]. rewrite zlen_nil in P. lia.
  - rewrite C2. unfold passed in *. destruct (past s) as [|b t] eqn:EP; [change (zlen (past [])) with 0; lia|]. rewrite zlen_cons in P. pose proof (zlen_nonneg t). lia.
  - rewrite C2, SK, P. unfold passed. destruct (past s) as [|b t] eqn:EP; [unfold passed in P; rewrite EP, zlen_nil in P; lia|]. rewrite (past_len (b :: t)) by discriminate. lia.
Qed.

Lemma rest_while p l ls : p 10 = false -> forall n buf k s, at_rest buf l s ls -> (length s < n)%nat ->
  exists k' buf', match_while n p buf k = Ok (k', buf') /\ at_rest buf' l (skip p s) ls /\ CurrentLine buf' = CurrentLine buf /\ k <= k' /\ (k' =? k) = negb (p (la s)).
Proof.
  intros P. induction n as [|n IH]; intros buf k s R F; [lia|]. cbn [match_while]. rewrite (ar_la _ _ _ _ R). destruct (p (la s)) eqn:PL.
  - destruct (rest_step (S n) _ _ _ _ p R P PL) as (b1 & -> & R1 & CL). cbn [rbind]. assert (NE : s <> []) by (intros ->; cbn in PL; congruence). pose proof (past_shorter s NE).
    destruct (IH b1 (k + 1) (past s) R1) as (k' & b' & -> & R' & CL' & LE & _); [lia|]. exists k', b'. split; [reflexivity|]. split.
    + replace (skip p s) with (skip p (past s)); [exact R'|]. unfold skip. destruct (length s) as [|m] eqn:ES; [destruct s; [congruence|discriminate]|]. cbn [drop]. rewrite PL. apply drop_fuel; [exact P|lia|lia].
    + split; [congruence|]. split; [lia|]. cbn. apply Z.eqb_neq. lia.
  - exists k, buf. split; [reflexivity|]. split; [|split; [reflexivity|split; [lia|cbn; apply Z.eqb_refl]]].
    replace (skip p s) with s; [exact R|]. unfold skip. destruct (length s); cbn [drop]; [reflexivity|now rewrite PL].
Qed.

Lemma rest_number buf l s s' ls : at_rest buf l s' ls -> 1 <= passed l s -> hex_word buf (passed l s - 1) (ByteCursor buf - 1) = Ok (number l s s').
Proof.
  intros R P1. unfold hex_word, number. rewrite (ar_pos _ _ _ _ R). destruct (Z.ltb_spec (passed l s - 1) (passed l s' - 1)); [|reflexivity].
  rewrite (on_text _ _ _ (ar_on _ _ _ _ R)). unfold zslice. pose proof (zlen_nonneg (past s')). assert (passed l s' <= zlen l) by (unfold passed; lia).
  destruct (Z.leb_spec 0 (passed l s - 1)), (Z.leb_spec (passed l s - 1) (passed l s' - 1)), (Z.leb_spec (passed l s' - 1) (zlen l)); try lia. reflexivity.
Qed.
Lemma rest_len buf l s ls : at_rest buf l s ls -> (length s <= length l)%nat.
Proof. intros R. destruct (ar_split _ _ _ _ R) as [p ->]. rewrite app_length. lia. Qed.
Lemma rest_pos buf l s ls : at_rest buf l s ls -> 1 <= passed l s.
Proof. intros R. rewrite <- (ar_pos _ _ _ _ R). apply (on_pos _ _ _ (ar_on _ _ _ _ R)). Qed.

(* ---- one line ---- *)
Lemma range_exact n k buf l ls : at_rest buf l l ls -> (length l + 1 < n)%nat ->
  exists t' s' buf', scan_rune_range isNd n (newScannerToken k 1) buf = Ok (t', s', buf') /\ on buf' l ls /\ CurrentLine buf' = CurrentLine buf /\
    match s' with
    | Some s' => s' = ScanItemBody /\ exists s, at_rest buf' l s ls /\ line_token (k, l) = item_token k (TokenType t') (runeFrom t') (runeTo t') s /\
                 t' = mktok k 1 (TokenType t') (runeFrom t') (runeTo t') [] [] NoErr
    | None => line_token (k, l) = t' /\ Error t' = HexError
    end.
Proof.
  intros R F. unfold scan_rune_range, line_token. pose proof (rest_pos _ _ _ _ R) as P0.
  replace (if 0 <? ByteCursor buf then ByteCursor buf - 1 else ByteCursor buf) with (passed l l - 1) by (rewrite (ar_pos _ _ _ _ R); destruct (Z.ltb_spec 0 (passed l l)); lia).
  destruct (rest_while (isHexDigit isNd) l ls (hex_10 isNd) n buf 0 l R) as (k1 & b1 & -> & R1 & CL1 & _); [lia|]. cbn [rbind]. set (s1 := skip (isHexDigit isNd) l) in *.
  rewrite (rest_number b1 l l s1 ls R1 P0). cbn [rbind]. pose proof (rest_len _ _ _ _ R1). pose proof (ar_on _ _ _ _ R1) as O1.
  set (from := number l l s1) in *.
  destruct (rest_while dot l ls eq_refl n b1 0 s1 R1) as (k2 & b2 & E2 & R2 & CL2 & _ & K2); [lia|]. set (s2 := skip dot s1) in *. pose proof (rest_len _ _ _ _ R2).
  destruct (rest_while (isHexDigit isNd) l ls (hex_10 isNd) n b2 0 s2 R2) as (k3 & b3 & E3 & R3 & CL3 & _); [lia|]. set (s3 := skip (isHexDigit isNd) s2) in *.
  pose proof (rest_pos _ _ _ _ R2) as P2. pose proof (rest_number b3 l s2 s3 ls R3 P2) as H3. set (to := number l s2 s3) in *. unfold dot in E2 at 1.
  assert (SAME : dot (la s1) = false -> s2 = s1).
  { intros D. unfold s2, skip. destruct (length s1); cbn [drop]; [reflexivity|]. now rewrite D. }
  destruct from as [[c|]|]; cbn [bad value].
  - rewrite E2. cbn [rbind]. rewrite K2. destruct (dot (la s1)) eqn:D; cbn [negb].
    + rewrite E3. cbn [rbind]. rewrite (ar_pos _ _ _ _ R2), H3. cbn [rbind]. destruct to as [[d|]|]; cbn [bad value]; eexists _, _, b3; (split; [reflexivity|]); (split; [exact (ar_on _ _ _ _ R3)|]); (split; [congruence|]); auto.
      all: split; [reflexivity|]; exists s3; auto.
    + eexists _, _, b2. split; [reflexivity|]. split; [exact (ar_on _ _ _ _ R2)|]. split; [congruence|]. split; [reflexivity|]. exists s1. rewrite SAME in R2 by reflexivity. auto.
  - eexists _, _, b1. split; [reflexivity|]. split; [exact O1|]. split; [congruence|]. auto.
  - rewrite E2. cbn [rbind]. rewrite K2. destruct (dot (la s1)) eqn:D; cbn [negb].
    + rewrite E3. cbn [rbind]. rewrite (ar_pos _ _ _ _ R2), H3. cbn [rbind]. destruct to as [[d|]|]; cbn [bad value]; eexists _, _, b3; (split; [reflexivity|]); (split; [exact (ar_on _ _ _ _ R3)|]); (split; [congruence|]); auto.
      all: split; [reflexivity|]; exists s3; auto.
    + eexists _, _, b2. split; [reflexivity|]. split; [exact (ar_on _ _ _ _ R2)|]. split; [congruence|]. split; [reflexivity|]. exists s1. rewrite SAME in R2 by reflexivity. auto.
Qed.

(* after a line: on the next line with content *)
Definition ready (buf : linebuf) (xs : list (Z * list Z)) (ls : list (list Z)) : Prop :=
  match xs with
  | [] => ended buf
  | (k, l) :: r => exists ls', at_rest buf l l ls' /\ Cursor buf = 1 /\ CurrentLine buf = k /\ numbered (k + 1) ls' = r /\ (length ls' < length ls)%nat /\ forall n, fits n ls -> fits n ls' /\ (length l + 1 < n)%nat
  end.
Lemma numbered_next ls : forall k, numbered (k + 1) ls = match next_item ls with Some (j, l, r) => (k + j, l) :: numbered (k + j + 1) r | None => [] end.
Proof.
  induction ls as [|x t IH]; intros k; [reflexivity|]. cbn [numbered next_item]. destruct (IsIgnoredLine x).
  - rewrite IH. destruct (next_item t) as [[[j l] r]|]; [|reflexivity]. replace (k + 1 + j) with (k + (j + 1)) by lia. reflexivity.
  - reflexivity.
Qed.
Lemma first_rest buf l ls : on buf l ls -> Lookahead buf = fst (DecodeRune l) -> ByteCursor buf = snd (DecodeRune l) -> at_rest buf l l ls.
Proof.
  intros O L P. pose proof (on_ne _ _ _ O) as NE. constructor; [exact O|now exists []| |].
  - rewrite L. destruct l; [congruence|reflexivity].
  - rewrite P. unfold passed. rewrite (past_len l NE). lia.
Qed.
Lemma ready_next buf k ls : match next_item ls with
    | None => ended buf
    | Some (j, l, r) => on buf l r /\ Cursor buf = 1 /\ Lookahead buf = fst (DecodeRune l) /\ ByteCursor buf = snd (DecodeRune l) /\ CurrentLine buf = k + j
    end -> ready buf (numbered (k + 1) ls) ls.
Proof.
  intros A. rewrite numbered_next. destruct (next_item ls) as [[[j l] r]|] eqn:NI; [|exact A]. destruct A as (O & CU & LA & BC & CL). exists r.
  split; [now apply first_rest|]. split; [exact CU|]. split; [exact CL|]. split; [reflexivity|]. split; [apply (next_item_data _ _ _ _ NI)|]. intros n FI. eapply fits_next; eauto.
Qed.

Definition sticky (e : tokerr) (t : token) : tokerr := match Error t with NoErr => e | e' => e' end.
Lemma next_exact n sc k l r ls : ready (Buf sc) ((k, l) :: r) ls -> Step sc = None -> fits n ls ->
  exists sc' ls', Next isNd n sc = Ok (true, sc') /\ Tok sc' = line_token (k, l) /\ Step sc' = None /\ ScError sc' = sticky (ScError sc) (Tok sc') /\
    ready (Buf sc') r ls' /\ fits n ls' /\ (length ls' < length ls)%nat.
Proof.
  intros (ls' & R & CU & CL & NB & LT & FI) ST FN. destruct (FI n FN) as [FI' F1]. pose proof (ar_on _ _ _ _ R) as O. pose proof (proj1 FI') as F2.
  unfold Next. rewrite (on_IsEof _ _ _ O). cbn [rbind]. rewrite ST, CL, CU.
  rewrite chain_S. cbn [Step run_step rbind Tok Buf Error newScannerToken].
  destruct (on_size _ _ _ O) as (size & -> & SZ). cbn [rbind]. rewrite SZ. cbn [ScError].
  rewrite chain_S. cbn [Step run_step Tok Buf]. change (mktok k 1 undefined 0 0 [] [] NoErr) with (newScannerToken k 1).
  destruct (range_exact n k (Buf sc) l ls' R F1) as (t' & s' & b' & -> & O' & CL' & D). cbn [rbind]. destruct s' as [s'|].
  - destruct D as (-> & s & R' & LT' & T'). assert (E0 : Error t' = NoErr) by (rewrite T'; reflexivity). rewrite E0. destruct (on_size _ _ _ O') as (size' & -> & SZ'). cbn [rbind]. rewrite SZ'. cbn [ScError].
    rewrite chain_S. cbn [Step run_step Tok Buf]. unfold scan_item_body.
    destruct (remainder_ok isNd n b' l ls' O' F2) as (b2 & -> & A). cbn [rbind]. rewrite (ar_la _ _ _ _ R'), (ar_pos _ _ _ _ R').
    assert (SK : skipn (Z.to_nat (passed l s)) l = past s).
    { destruct (ar_split _ _ _ _ R') as [p E]. unfold passed. destruct s as [|c s]; [rewrite skipn_all2; [reflexivity|change (past []) with (@nil Z); unfold zlen; cbn [length]; lia]|].
      destruct (past_split (c :: s) ltac:(discriminate)) as (a & E2 & _). replace l with ((p ++ a) ++ past (c :: s)); [apply suffix_skip|]. rewrite <- app_assoc, <- E2. now symmetry. }
    rewrite SK. set (rest := EncodeRune (la s) ++ past s) in *. destruct (item_body rest) as [fs cm] eqn:IB. cbn [rbind].
    assert (TK : mktok (LineNo t') (ColNo t') (TokenType t') (runeFrom t') (runeTo t') fs (match Split 35 rest with _ :: _ :: _ => cm | _ => Comment t' end) (Error t') = line_token (k, l)).
    { rewrite LT', T'. cbn [LineNo ColNo Comment Error TokenType runeFrom runeTo]. unfold item_token. fold rest. rewrite IB. cbn [fst snd]. f_equal.
      unfold item_body in IB. destruct (Split 35 rest) as [|x [|y z]]; injection IB as <- <-; reflexivity. }
    rewrite TK. assert (ER : Error (line_token (k, l)) = NoErr) by (rewrite LT'; reflexivity). rewrite ER.
    assert (RD : ready b2 r ls'). { rewrite <- NB. apply ready_next. rewrite CL', CL in A. exact A. }
    destruct (next_item ls') as [[[j x] r']|] eqn:NI.
    + destruct (on_size _ _ _ (proj1 A)) as (size2 & -> & SZ2). cbn [rbind]. rewrite SZ2. rewrite chain_S. cbn [Step ScError]. cbn [rbind].
      eexists _, ls'. split; [reflexivity|]. cbn [Step Buf Tok ScError]. unfold sticky. rewrite ER. repeat (split; [auto; fail|]). auto.
    + pose proof A as [A1 A2]. unfold line_size. rewrite A2. cbn [rbind]. change (zlen [] =? 0) with true. cbn iota. cbn [rbind].
      eexists _, ls'. split; [reflexivity|]. cbn [Step Buf Tok ScError]. unfold sticky. rewrite ER. repeat (split; [auto; fail|]). auto.
  - destruct D as (LT' & ER). rewrite ER. pose proof (AdvanceLine_ok n b' ls' (on_src _ _ _ O') F2 (on_eof _ _ _ O') (on_err _ _ _ O')) as A.
    assert (RD : exists b2 e, AdvanceLine n b' = Ok (e, b2) /\ ready b2 r ls').
    { rewrite <- NB. pose proof (fun b => ready_next b k ls') as RN. destruct (next_item ls') as [[[j x] r']|].
      - destruct A as (b2 & -> & O2 & C2 & C3 & C4 & C5). exists b2, None. split; [reflexivity|]. apply RN. rewrite CL', CL in C2. auto.
      - destruct A as (b2 & -> & E2). exists b2, (Some AtEof). split; [reflexivity|]. now apply RN. }
    destruct RD as (b2 & e & -> & RD). cbn [rbind]. eexists _, ls'. split; [reflexivity|]. cbn [Step Buf Tok ScError]. unfold sticky. rewrite ER. repeat (split; [auto; fail|]). auto.
Qed.

Lemma lines_exact n : forall xs m sc ls acc, ready (Buf sc) xs ls -> Step sc = None -> fits n ls -> (length ls < m)%nat ->
  parse_loop isNd m n sc acc = Ok (acc ++ map line_token xs, fold_left sticky (map line_token xs) (ScError sc)).
Proof.
  induction xs as [|[k l] xs IH]; intros m sc ls acc R ST FI F; (destruct m; [lia|]); cbn [parse_loop map fold_left].
  - destruct (ended_next isNd n sc R) as [t ->]. cbn [rbind ScError]. now rewrite app_nil_r.
  - destruct (next_exact n sc k l xs ls R ST FI) as (sc' & ls' & -> & T & ST' & SE & R' & FI' & LT). cbn [rbind].
    rewrite (IH m sc' ls' (acc ++ [Tok sc']) R' ST' FI') by lia. rewrite <- app_assoc, SE, T. reflexivity.
Qed.

Lemma file_exact n file sizes ls : short_lines file -> lines_of file ls -> (length file + 3 <= n)%nat ->
  Parse isNd n (NewScanner file sizes EOF) = Ok (file_tokens ls, last_error (file_tokens ls)).
Proof.
  intros SH L F. pose proof (lines_fit _ _ _ L F) as FI. unfold Parse.
  destruct (start_ok n file sizes ls SH L FI) as (sc & -> & ST & SE & A). cbn [rbind].
  destruct (lines_len _ _ L) as [LL _]. destruct n; [lia|]. cbn [parse_loop].
  unfold file_tokens. change 1 with (0 + 1). assert (RD : ready (Buf sc) (numbered (0 + 1) ls) ls) by (apply ready_next; exact A).
  destruct (numbered (0 + 1) ls) as [|[k l] xs] eqn:NB.
  - destruct (ended_next isNd (S n) sc RD) as [t ->]. cbn [rbind ScError]. rewrite SE. reflexivity.
  - pose proof RD as (ls' & R & CU & CL & NB' & LT & FN). pose proof (ar_on _ _ _ _ R) as O. destruct (FN _ FI) as [FI' _].
    pose proof (ar_la _ _ _ _ R) as LA. destruct (Z.eqb_spec (la l) 32) as [E32|N32].
    + unfold Next. rewrite (on_IsEof _ _ _ O). cbn [rbind]. rewrite ST. rewrite chain_S. cbn [Step run_step Tok Buf].
      unfold scan_file_start. rewrite (on_IsEof _ _ _ O). cbn [rbind]. rewrite LA, E32. change (32 =? 32) with true. cbn iota.
      set (t := set_error _ _). replace (Error t) with Indented by reflexivity. assert (TK : t = mktok k 1 docRoot 0 0 [] [] Indented) by (unfold t; rewrite CU, CL; reflexivity).
      pose proof (AdvanceLine_ok (S n) (Buf sc) ls' (on_src _ _ _ O) (proj1 FI') (on_eof _ _ _ O) (on_err _ _ _ O)) as B.
      assert (RD2 : exists b2 e, AdvanceLine (S n) (Buf sc) = Ok (e, b2) /\ ready b2 xs ls').
      { rewrite <- NB'. pose proof (fun b => ready_next b k ls') as RN. destruct (next_item ls') as [[[j x] r']|].
        - destruct B as (b2 & -> & O2 & C2 & C3 & C4 & C5). exists b2, None. split; [reflexivity|]. apply RN. rewrite CL in C2. auto.
        - destruct B as (b2 & -> & E2). exists b2, (Some AtEof). split; [reflexivity|]. now apply RN. }
      destruct RD2 as (b2 & e & -> & RD2). cbn [rbind Tok app].
      rewrite (lines_exact (S n) xs n (mksc b2 None Indented t) ls' [t] RD2 eq_refl FI') by lia. cbn [ScError app]. rewrite TK. reflexivity.
    + rewrite <- LA in N32. rewrite (start_next isNd (S n) sc l ls' ST O N32). cbn [rbind Tok app]. set (doc := set_type _ _). assert (TK : doc = mktok k 1 docRoot 0 0 [] [] NoErr) by (unfold doc; rewrite CU, CL; reflexivity).
      rewrite (lines_exact (S n) ((k, l) :: xs) n (mksc (Buf sc) None (ScError sc) doc) ls [doc] RD eq_refl FI) by lia. cbn [ScError app]. rewrite TK, SE. reflexivity.
Qed.

(* ---- a line that begins with digits ---- *)
Definition int32 (v : Z) : option Z := if v <? 2 ^ 31 then Some v else None.
Lemma hex_loop_app a b : forall acc, hex_loop acc (a ++ b) = match hex_loop acc a with Some x => hex_loop x b | None => None end.
Proof. induction a as [|c a IH]; intros acc; cbn [app hex_loop]; [reflexivity|]. destruct (hexval c); [apply IH|reflexivity]. Qed.
Lemma numeral_loop d v : numeral d v -> hex_loop 0 d = Some v.
Proof. intros (ds & NE & F & -> & ->). now apply hex_loop_digits. Qed.
Lemma numeral_short d v c : numeral (d ++ [c]) v -> hex_loop 0 d = Some (v / 16).
Proof.
  intros N. pose proof (numeral_loop _ _ N) as H. rewrite hex_loop_app in H. destruct (hex_loop 0 d) as [x|]; [|discriminate]. cbn [hex_loop] in H.
  destruct (hexval c) as [y|] eqn:E; [|discriminate]. injection H as <-. f_equal. assert (0 <= y < 16).
  { unfold hexval, between in E. destruct (Z.leb_spec 48 c), (Z.leb_spec c 57), (Z.leb_spec 97 c), (Z.leb_spec c 102), (Z.leb_spec 65 c), (Z.leb_spec c 70); cbn [andb] in E; try discriminate; injection E as <-; lia. }
  Z.div_mod_to_equations. lia.
Qed.
Lemma skip_digits d s : Forall hexchar d -> isHexDigit isNd (la s) = false -> skip (isHexDigit isNd) (d ++ s) = s.
Proof.
  intros D H. unfold skip. induction D as [|c d C D IH]; cbn [app length].
  - destruct (length s); cbn [drop]; [reflexivity|now rewrite H].
  - cbn [drop]. assert (A : ascii c) by (unfold ascii, hexchar in *; lia). unfold la at 1, past at 1. rewrite (decode_ascii c (d ++ s) A). cbn [fst snd]. rewrite (hexchar_yes isNd c C). exact IH.
Qed.
Lemma first_number d v s : numeral d v -> isHexDigit isNd (la s) = false ->
  number (d ++ s) (d ++ s) (skip (isHexDigit isNd) (d ++ s)) =
    match s with [] => if zlen d =? 1 then None else Some (int32 (v / 16)) | _ => if snd (DecodeRune s) =? 1 then Some (int32 v) else Some None end.
Proof.
  intros N H. destruct (numeral_chars _ _ N) as [NE D]. rewrite (skip_digits d s D H). unfold number.
  assert (P1 : passed (d ++ s) (d ++ s) = 1).
  { unfold passed. rewrite past_len by (destruct d; [congruence|discriminate]). destruct d as [|c d]; [congruence|]. cbn [app]. inversion D; subst. rewrite decode_ascii by (unfold ascii, hexchar in *; lia). cbn [snd]. lia. }
  rewrite P1. replace (1 - 1) with 0 by lia. change (Z.to_nat 0) with 0%nat. cbn [skipn]. pose proof (zlen_pos d NE) as LD. destruct s as [|b s].
  - rewrite app_nil_r. unfold passed. change (zlen (past [])) with 0. destruct (Z.eqb_spec (zlen d) 1); destruct (Z.ltb_spec 0 (zlen d - 0 - 1)); try lia; [reflexivity|].
    destruct d as [|c d] using rev_ind; [congruence|]. clear IHd. replace (Z.to_nat (zlen (d ++ [c]) - 0 - 1 - 0)) with (length d + 0)%nat by (rewrite zlen_app; unfold zlen; cbn [length]; lia).
    rewrite firstn_plus. cbn [firstn]. rewrite app_nil_r. unfold ParseInt. rewrite (numeral_short _ _ _ N). reflexivity.
  - unfold passed. rewrite zlen_app, (past_len (b :: s)) by discriminate. pose proof (decode_size (b :: s) ltac:(discriminate)) as DS.
    set (z := snd (DecodeRune (b :: s))) in *. destruct (Z.ltb_spec 0 (zlen d + zlen (b :: s) - (zlen (b :: s) - z) - 1)); [|lia].
    replace (Z.to_nat (zlen d + zlen (b :: s) - (zlen (b :: s) - z) - 1 - 0)) with (length d + Z.to_nat (z - 1))%nat by (unfold zlen; lia). rewrite firstn_plus. unfold ParseInt. rewrite hex_loop_app, (numeral_loop _ _ N).
    destruct (Z.eqb_spec z 1) as [E|NZ]; [rewrite E; reflexivity|]. replace (Z.to_nat (z - 1)) with (S (Z.to_nat (z - 2))) by lia. rewrite firstn_cons. cbn [hex_loop].
    assert (B : 128 <= b). { destruct (Z.lt_ge_cases b 128) as [LT|]; [|assumption]. exfalso. apply NZ. unfold z. cbn [DecodeRune]. destruct (Z.ltb_spec b 128); [reflexivity|lia]. }
    unfold hexval, between. destruct (Z.leb_spec b 57), (Z.leb_spec b 102), (Z.leb_spec b 70); try lia. rewrite !andb_false_r. reflexivity.
Qed.
Lemma numeral_nonneg d v : numeral d v -> 0 <= v.
Proof.
  intros (ds & _ & FD & _ & ->). assert (G : forall acc, 0 <= acc -> 0 <= fold_left (fun acc (x : bool * Z) => acc * 16 + snd x) ds acc); [|apply G; lia].
  induction FD as [|x ds X FD IH]; intros acc A; cbn [fold_left]; [exact A|]. apply IH. cbv beta in X. destruct x as [u x]; cbn [snd] in *. lia.
Qed.
(* Exactly when a single code point is read as it is written. *)
Lemma single_iff k d v s : numeral d v -> isHexDigit isNd (la s) = false -> la s <> 46 ->
  (Error (line_token (k, d ++ s)) = NoErr /\ Range (line_token (k, d ++ s)) = (v, v)) <->
  (v < 2 ^ 31 /\ s <> [] /\ snd (DecodeRune s) = 1) \/ (s = [] /\ v = 0).
Proof.
  intros N H ND. pose proof (first_number d v s N H) as F. destruct (numeral_chars _ _ N) as [_ D]. rewrite (skip_digits d s D H) in F. unfold line_token. rewrite (skip_digits d s D H), F.
  assert (ED : dot (la s) = false) by (now apply Z.eqb_neq). rewrite ED. cbn [negb]. pose proof (numeral_nonneg _ _ N) as V0.
  destruct s as [|b s].
  - assert (DV : v / 16 = v <-> v = 0) by (Z.div_mod_to_equations; lia).
    destruct (zlen d =? 1) eqn:E1; cbn [bad value item_token Error Range runeFrom runeTo].
    + split; [|intros [(_ & X & _)|[_ ->]]; [congruence|split; reflexivity]]. intros [_ X]. injection X as X. right. auto.
    + unfold int32. destruct (v / 16 <? 2 ^ 31) eqn:E2; cbn [bad value item_token Error Range runeFrom runeTo].
      * split; [|intros [(_ & X & _)|[_ ->]]; [congruence|split; reflexivity]]. intros [_ X]. injection X as X. right. split; [reflexivity|]. apply DV. exact X.
      * split; [intros [X _]; discriminate|]. intros [(_ & X & _)|[_ ->]]; [congruence|]. discriminate.
  - destruct (Z.eqb_spec (snd (DecodeRune (b :: s))) 1) as [E1|E1]; cbn [bad value item_token Error].
    + unfold int32. destruct (Z.ltb_spec v (2 ^ 31)); cbn [bad value item_token Error Range runeFrom runeTo].
      * split; [intros _; left; repeat split; [lia|discriminate|exact E1]|intros _; split; reflexivity].
      * split; [intros [X _]; discriminate|]. intros [(X & _)|[X _]]; [lia|discriminate].
    + split; [intros [X _]; discriminate|]. intros [(_ & _ & X)|[X _]]; [congruence|discriminate].
Qed.
End Digits.
