(* UcdFileProofs.v -- parsing of complete UCD files: termination, the tokens of well-formed files, readers
   that fail. *)
From Coq Require Import List ZArith Lia Bool Arith.
From Verif Require Import Base RuneWrite Segmenter Utf8 Utf8Proofs LineBuf UcdSpec LineBufProofs UcdParse UcdParseProofs UcdItemProofs.
Import ListNotations.
Open Scope Z_scope.

(* what a token says about an item: the fields without the white space around them, and exactly *)
Definition denotes (x : Z * item) (t : token) : Prop :=
  let '(ln, it) := x in
  LineNo t = ln /\ ColNo t = 1 /\ Error t = NoErr /\
  TokenType t = (match it_to it with Some _ => rangeDataItem | None => singleDataItem end) /\
  Range t = (it_from it, match it_to it with Some v => v | None => it_from it end) /\
  map TrimSpace (Fields t) = map strip (it_fields it) /\
  Comment t = match it_comment it with Some c => TrimSpace c | None => [] end /\
  Fields t = rstrip_last (it_fields it).

Lemma no_item_ignored l : no_item l -> IsIgnoredLine l = true.
Proof.
  intros [B|(g & c & B & ->)].
  - induction B as [|b l X F IH]; auto. cbn. now destruct X as [-> | ->].
  - induction B as [|b l X F IH]; auto. cbn. now destruct X as [-> | ->].
Qed.
Lemma written_first it l : written it l -> exists c r, l = c :: r /\ hexchar c.
Proof.
  intros (h & rg & gap & NUM & _ & _ & ->). destruct (numeral_chars _ _ NUM) as [NE HC]. destruct h as [|c h]; [congruence|].
  inversion HC; subst. cbn. eauto.
Qed.
Lemma written_not_ignored it l : written it l -> IsIgnoredLine l = false.
Proof.
  intros W. destruct (written_first _ _ W) as (c & r & -> & H). cbn. unfold re_space, hexchar in *.
  destruct (Z.eqb_spec c 9), (Z.eqb_spec c 10), (Z.eqb_spec c 12), (Z.eqb_spec c 13), (Z.eqb_spec c 32), (Z.eqb_spec c 35); try lia; reflexivity.
Qed.

(* the next item of a well-formed rest *)
Lemma contents_next ln ls its : contents ln ls its ->
  match its with
  | [] => next_item ls = None
  | (n, it) :: its' => exists k l r, next_item ls = Some (k, l, r) /\ n = ln + k - 1 /\ written it l /\ item_ok it /\ first_field_there it /\ contents (n + 1) r its'
  end.
Proof.
  induction 1 as [n|n l ls its NI C IH|n l ls it its W OK FF C IH].
  - reflexivity.
  - cbn [next_item]. rewrite (no_item_ignored _ NI). destruct its as [|[m it] its].
    + now rewrite IH.
    + destruct IH as (k & x & r & -> & -> & REST). exists (k + 1), x, r. split; auto. split; [lia|]. tauto.
  - cbn [next_item]. rewrite (written_not_ignored _ _ W). exists 1, l, ls. repeat (split; [auto; lia|]). auto.
Qed.

Section Digits.
Context (isNd : Z -> bool).

Lemma item_body_written gap it : Forall blank gap -> item_ok it -> first_field_there it ->
  let rest := gap ++ join (it_fields it) ++ match it_comment it with None => [] | Some c => 35 :: c end in
  map TrimSpace (fst (item_body rest)) = map strip (it_fields it) /\
  fst (item_body rest) = rstrip_last (it_fields it) /\
  (match Split 35 rest with _ :: _ :: _ => snd (item_body rest) | _ => [] end) = match it_comment it with Some c => TrimSpace c | None => [] end.
Proof.
  intros G (_ & _ & NE & FS & CM) FF. cbv zeta. unfold item_body.
  assert (NH : ~ In 35 (gap ++ join (it_fields it))).
  { intros I. apply in_app_iff in I. destruct I as [I|I]; [now apply blank_no_hash in I|now apply join_no_hash in I]. }
  rewrite app_assoc. revert CM. destruct (it_comment it) as [c|]; intros CM.
  - rewrite (Split_app 35), (Split_none 35) by assumption. cbn [fst snd hd]. split; [now apply body_fields|]. split; [now apply body_fields_exact|reflexivity].
  - rewrite app_nil_r. rewrite (Split_none 35) by assumption. cbn [fst snd hd]. split; [now apply body_fields|]. split; [now apply body_fields_exact|reflexivity].
Qed.

(* one item line *)
Lemma item_next n sc l ls it : on (Buf sc) l ls -> Step sc = None -> (length l + 1 < n)%nat -> (length ls < n)%nat ->
  Cursor (Buf sc) = 1 -> Lookahead (Buf sc) = fst (DecodeRune l) -> ByteCursor (Buf sc) = snd (DecodeRune l) ->
  written it l -> item_ok it -> first_field_there it ->
  exists sc', Next isNd n sc = Ok (true, sc') /\ advanced sc' ls (CurrentLine (Buf sc)) /\ denotes (CurrentLine (Buf sc), it) (Tok sc') /\ ScError sc' = ScError sc.
Proof.
  intros O ST F1 F2 CU LA BC W OK FF. unfold Next. rewrite (on_IsEof _ _ _ O). cbn [rbind]. rewrite ST.
  set (tk := newScannerToken _ _).
  rewrite chain_S. cbn [Step run_step rbind Tok Buf Error newScannerToken]. replace (Error tk) with NoErr by reflexivity.
  destruct (on_size _ _ _ O) as (size & -> & SZ). cbn [rbind]. rewrite SZ. cbn [ScError].
  rewrite chain_S. cbn [Step run_step Tok Buf].
  destruct (range_item isNd n tk (Buf sc) l ls it O LA BC W OK F1) as (b' & gap & G & O' & CL & REST & ->). cbn [rbind].
  set (t1 := set_type _ _). assert (E1 : Error t1 = NoErr) by reflexivity. rewrite E1.
  destruct (on_size _ _ _ O') as (size' & -> & SZ'). cbn [rbind]. rewrite SZ'. cbn [ScError].
  rewrite chain_S. cbn [Step run_step Tok Buf]. unfold scan_item_body.
  destruct (remainder_ok isNd n b' l ls O' F2) as (b2 & -> & A). cbn [rbind]. rewrite REST.
  destruct (item_body_written gap it G OK FF) as (BF & BX & BCm).
  destruct (item_body _) as [fs cm]. cbn [fst snd] in BF, BX, BCm. cbn [rbind Error]. rewrite E1.
  match goal with |- context [mktok ?a ?b ?c ?d ?e ?f ?g ?h] => set (t2 := mktok a b c d e f g h) end.
  assert (DEN : denotes (CurrentLine (Buf sc), it) t2).
  { unfold denotes, t2. cbn [LineNo ColNo TokenType runeFrom runeTo Fields Comment Error Range]. repeat split; auto; try (rewrite <- BCm; reflexivity). }
  unfold advanced. rewrite CL in A. destruct (next_item ls) as [[[k x] r]|].
  - destruct (on_size _ _ _ (proj1 A)) as (size2 & -> & SZ2). cbn [rbind]. rewrite SZ2. rewrite chain_S. cbn [Step ScError].
    cbn [rbind]. eexists. split; [reflexivity|]. cbn [Step Buf Tok ScError]. auto.
  - destruct A as [A1 A2]. unfold line_size. rewrite A2. cbn [rbind]. change (zlen [] =? 0) with true. cbn iota. cbn [rbind].
    eexists. split; [reflexivity|]. cbn [Step Buf Tok ScError]. unfold ended. auto.
Qed.

Lemma ended_next n sc : ended (Buf sc) -> exists t, Next isNd n sc = Ok (false, mksc (Buf sc) (Step sc) (ScError sc) t).
Proof. intros E. unfold Next. rewrite (ended_IsEof _ E). cbn [rbind]. eauto. Qed.

(* all lines short enough for the fuel *)
Definition fits (n : nat) (ls : list (list Z)) : Prop := (length ls < n)%nat /\ Forall (fun l => (length l + 1 < n)%nat) ls.
Lemma fits_next n ls k l r : fits n ls -> next_item ls = Some (k, l, r) -> fits n r /\ (length l + 1 < n)%nat.
Proof.
  revert k l r. induction ls as [|x t IH]; cbn; intros k l r [F1 F2] H; [discriminate|]. inversion F2; subst. cbn in F1.
  destruct (IsIgnoredLine x).
  - destruct (next_item t) as [[[k' l'] r']|]; [|discriminate]. injection H as <- <- <-. apply (IH k' l' r'); [split; auto; lia|auto].
  - injection H as <- <- <-. split; [split; auto; lia|auto].
Qed.

Lemma items_loop n : forall its m sc ls ln acc, contents (ln + 1) ls its -> advanced sc ls ln -> fits n ls -> (length its < m)%nat -> ScError sc = NoErr ->
  exists ps, parse_loop isNd m n sc acc = Ok (acc ++ ps, NoErr) /\ Forall2 denotes its ps.
Proof.
  induction its as [|[q it] its IH]; intros m sc ls ln acc C [ST A] FI F SE; (destruct m; [lia|]); cbn [parse_loop]; apply contents_next in C.
  - rewrite C in A. destruct (ended_next n sc A) as [t ->]. cbn [rbind ScError]. exists []. rewrite app_nil_r, SE. auto.
  - destruct C as (k & l & r & NI & -> & W & OK & FF & C). rewrite NI in A. destruct A as (O & CU & LA & BC & CL).
    destruct (fits_next _ _ _ _ _ FI NI) as [FI' FL].
    destruct (item_next n sc l r it O ST FL (proj1 FI') CU LA BC W OK FF) as (sc' & -> & A' & D & SE'). cbn [rbind].
    rewrite CL in A', D. replace (ln + 1 + k - 1) with (ln + k) in * by lia.
    destruct (IH m sc' r (ln + k) (acc ++ [Tok sc']) C A' FI') as (ps & -> & D2); [cbn in F; lia|congruence|].
    exists (Tok sc' :: ps). rewrite <- app_assoc. auto.
Qed.

Lemma lines_len s ls : lines_of s ls -> (length ls <= length s)%nat /\ Forall (fun l => (length l <= length s)%nat) ls.
Proof.
  induction 1 as [|s l r ls NE FL L [IH1 IH2]]; [cbn; auto|].
  pose proof (first_line_shorter s NE) as SH. rewrite FL in SH. cbn [snd] in SH.
  assert (LL : (length l <= length s)%nat).
  { clear - FL. revert l r FL. induction s as [|b t IH]; cbn; intros l r FL; [injection FL as <- <-; auto|].
    destruct (b =? 10); [injection FL as <- <-; cbn; lia|]. destruct (b =? 13); [injection FL as <- <-; cbn; lia|].
    destruct (first_line t) as [x y]. injection FL as <- <-. specialize (IH _ _ eq_refl). cbn. lia. }
  cbn. split; [lia|]. constructor; auto. eapply Forall_impl; [|exact IH2]. cbn. intros. lia.
Qed.
Lemma lines_fit s ls n : lines_of s ls -> (length s + 3 <= n)%nat -> fits n ls.
Proof. intros L F. destruct (lines_len _ _ L) as [L1 L2]. split; [lia|]. eapply Forall_impl; [|exact L2]. cbn. intros. lia. Qed.

(* the start: the buffer stands on the first line with content *)
Lemma start_ok n file sizes ls : short_lines file -> lines_of file ls -> fits n ls ->
  exists sc, New n (NewScanner file sizes EOF) = Ok sc /\ Step sc = Some ScanFileStart /\ ScError sc = NoErr /\
  match next_item ls with
  | None => ended (Buf sc)
  | Some (k, l, r) => on (Buf sc) l r /\ Cursor (Buf sc) = 1 /\ Lookahead (Buf sc) = fst (DecodeRune l) /\ ByteCursor (Buf sc) = snd (DecodeRune l) /\ CurrentLine (Buf sc) = k
  end.
Proof.
  intros SH L [F1 F2]. destruct (source_fresh file sizes SH) as (ls' & SRC & L'). assert (ls' = ls) as -> by (eapply lines_fun; eauto).
  unfold New, newLineBuffer. set (b0 := mklb _ _ _ _ _ _ _ _ _).
  pose proof (AdvanceLine_ok n b0 ls SRC F1 eq_refl eq_refl) as A.
  destruct (next_item ls) as [[[k l] r]|].
  - destruct A as (b' & -> & O & CL & CU & LA & BC). cbn [rbind]. eexists. split; [reflexivity|]. cbn [Step ScError Buf]. split; [reflexivity|]. split; [reflexivity|].
    unfold set_err. cbn [Lookahead Cursor ByteCursor CurrentLine Input Text Line isEof LastError]. split; [destruct O; constructor; auto|]. repeat split; auto.
  - destruct A as (b' & -> & E). cbn [rbind]. eexists. split; [reflexivity|]. cbn [Step ScError Buf]. auto.
Qed.

(* the first call of Next: a token for the document *)
Lemma start_next n sc l r : Step sc = Some ScanFileStart -> on (Buf sc) l r -> Lookahead (Buf sc) <> 32 ->
  Next isNd n sc = Ok (true, mksc (Buf sc) None (ScError sc) (set_type (newScannerToken (CurrentLine (Buf sc)) (Cursor (Buf sc))) docRoot)).
Proof.
  intros ST O LA. unfold Next. rewrite (on_IsEof _ _ _ O). cbn [rbind]. rewrite ST. rewrite chain_S. cbn [Step run_step Tok Buf].
  unfold scan_file_start. rewrite (on_IsEof _ _ _ O). cbn [rbind]. destruct (Z.eqb_spec (Lookahead (Buf sc)) 32); [congruence|].
  set (t := set_type _ _). replace (Error t) with NoErr by reflexivity. destruct (on_size _ _ _ O) as (size & -> & SZ). cbn [rbind]. rewrite SZ.
  rewrite chain_S. cbn [Step ScError]. reflexivity.
Qed.

(* Well-formed files: a token for the document, then one token for each item. *)
Lemma parse_items n file sizes ls its : short_lines file -> lines_of file ls -> contents 1 ls its -> (length file + 3 <= n)%nat ->
  exists ps, Parse isNd n (NewScanner file sizes EOF) = Ok (ps, NoErr) /\
    match its with
    | [] => ps = []
    | _ => exists doc ps', ps = doc :: ps' /\ TokenType doc = docRoot /\ Fields doc = [] /\ Range doc = (0, 0) /\ Forall2 denotes its ps'
    end.
Proof.
  intros SH L C F. pose proof (lines_fit _ _ _ L F) as FI. unfold Parse.
  destruct (start_ok n file sizes ls SH L FI) as (sc & -> & ST & SE & A). cbn [rbind].
  assert (LI : (length its <= length ls)%nat). { clear - C. induction C; cbn; lia. }
  destruct (lines_len _ _ L) as [LL _].
  pose proof (contents_next _ _ _ C) as CN. destruct n; [lia|]. cbn [parse_loop]. destruct its as [|[q it] its].
  - rewrite CN in A. destruct (ended_next (S n) sc A) as [t ->]. cbn [rbind ScError]. rewrite SE. eauto.
  - destruct CN as (k & l & r & NI & Q & W & OK & FF & C'). rewrite NI in A. destruct A as (O & CU & LA & BC & CL).
    assert (N32 : Lookahead (Buf sc) <> 32).
    { destruct (written_first _ _ W) as (c & x & -> & H). rewrite decode_ascii in LA by (unfold hexchar, ascii in *; lia). cbn in LA. unfold hexchar in H. lia. }
    rewrite (start_next (S n) sc l r ST O N32). cbn [rbind Tok app].
    set (sc1 := mksc _ _ _ _). set (doc := set_type _ _).
    destruct (items_loop (S n) ((q, it) :: its) n sc1 ls 0 [doc]) as (ps & -> & D); auto.
    + split; [reflexivity|]. rewrite NI. cbn [Buf sc1]. repeat (split; [assumption|]). lia.
    + cbn [length] in *. lia.
    + exists ([doc] ++ ps). split; [reflexivity|]. exists doc, ps. repeat split; auto.
Qed.

(* Every file, whatever it contains: parsing ends without a panic, with at most one token per line with content
   and one for the document. *)
Lemma gen_loop n : forall k m sc ls ln acc, (length ls < k)%nat -> (k <= m)%nat -> advanced sc ls ln -> fits n ls -> (* one round per line *)
  exists ps e, parse_loop isNd m n sc acc = Ok (ps, e) /\ (length ps <= length acc + length ls)%nat.
Proof.
  induction k as [|k IH]; intros m sc ls ln acc K M [ST A] FI; [lia|]. destruct m; [lia|]. cbn [parse_loop].
  destruct (next_item ls) as [[[j l] r]|] eqn:NI.
  - destruct A as (O & _). destruct (fits_next _ _ _ _ _ FI NI) as [FI' FL]. destruct (next_item_data _ _ _ _ NI) as [_ LT].
    destruct (item_ok_gen isNd n sc l r O ST FL (proj1 FI')) as (sc' & ln' & -> & A'). cbn [rbind].
    destruct (IH m sc' r ln' (acc ++ [Tok sc'])) as (ps & e & -> & LP); auto; try lia. exists ps, e. split; auto. rewrite app_length in LP. cbn in LP. lia.
  - destruct (ended_next n sc A) as [t ->]. cbn [rbind ScError]. exists acc, (ScError sc). split; auto. lia.
Qed.

Lemma parse_total n file sizes ls : short_lines file -> lines_of file ls -> (length file + 3 <= n)%nat ->
  exists ps e, Parse isNd n (NewScanner file sizes EOF) = Ok (ps, e) /\ (length ps <= length ls + 1)%nat.
Proof.
  intros SH L F. pose proof (lines_fit _ _ _ L F) as FI. unfold Parse.
  destruct (start_ok n file sizes ls SH L FI) as (sc & -> & ST & SE & A). cbn [rbind].
  destruct (lines_len _ _ L) as [LL _]. destruct n; [lia|]. cbn [parse_loop].
  destruct (next_item ls) as [[[k l] r]|] eqn:NI.
  - destruct A as (O & CU & LA & BC & CL). destruct (fits_next _ _ _ _ _ FI NI) as [FI' FL]. destruct (next_item_data _ _ _ _ NI) as [_ LT].
    destruct (Z.eq_dec (Lookahead (Buf sc)) 32) as [E32|N32].
    + unfold Next. rewrite (on_IsEof _ _ _ O). cbn [rbind]. rewrite ST. rewrite chain_S. cbn [Step run_step Tok Buf].
      unfold scan_file_start. rewrite (on_IsEof _ _ _ O). cbn [rbind]. rewrite E32. change (32 =? 32) with true. cbn iota.
      set (t := set_error _ _). replace (Error t) with Indented by reflexivity.
      pose proof (AdvanceLine_ok (S n) (Buf sc) r (on_src _ _ _ O) (proj1 FI') (on_eof _ _ _ O) (on_err _ _ _ O)) as B.
      assert (ADV : exists b', (exists e, AdvanceLine (S n) (Buf sc) = Ok (e, b')) /\ advanced (mksc b' None Indented t) r (CurrentLine (Buf sc))).
      { unfold advanced. cbn [Step Buf]. destruct (next_item r) as [[[k' l'] r']|].
        - destruct B as (b' & -> & B1 & B2 & B3 & B4 & B5). exists b'. split; [eauto|]. repeat (split; auto).
        - destruct B as (b' & -> & B). exists b'. split; eauto. }
      destruct ADV as (b' & (e & ->) & ADV). cbn [rbind Tok app].
      assert (M : (S (length r) <= n)%nat) by lia.
      destruct (gen_loop (S n) (S (length r)) n _ r _ [t] (Nat.lt_succ_diag_r _) M ADV FI') as (ps & e' & E & LP).
      exists ps, e'. split; [exact E|]. cbn [length] in LP. lia.
    + rewrite (start_next (S n) sc l r ST O N32). cbn [rbind Tok app]. set (doc := set_type _ _). set (sc1 := mksc _ _ _ _).
      assert (ADV : advanced sc1 ls 0). { split; [reflexivity|]. rewrite NI. cbn [Buf sc1]. repeat (split; [assumption|]). lia. }
      assert (M : (S (length ls) <= n)%nat) by lia.
      destruct (gen_loop (S n) (S (length ls)) n sc1 ls 0 [doc] (Nat.lt_succ_diag_r _) M ADV FI) as (ps & e' & E & LP).
      exists ps, e'. split; [exact E|]. cbn [length] in LP. lia.
  - destruct (ended_next (S n) sc A) as [t ->]. cbn [rbind ScError]. exists [], (ScError sc). split; auto. cbn. lia.
Qed.
End Digits.
