(* UcdItemProofs.v -- the tokens of well-formed UCD files; files that cannot be read. *)
From Coq Require Import List ZArith Lia Bool Arith.
From Verif Require Import Base RuneWrite Segmenter Utf8 Utf8Proofs LineBuf UcdSpec LineBufProofs UcdParse UcdParseProofs.
Import ListNotations.
Open Scope Z_scope.

Definition ascii (b : Z) : Prop := 0 <= b < 128.

(* ---- stripping white space ---- *)
Lemma strip_eq s : strip s = rstrip (strip_left s). Proof. reflexivity. Qed.
Lemma strip_left_snoc s c : strip_left (s ++ [c]) = match strip_left s with [] => if is_white c then [] else [c] | x => x ++ [c] end.
Proof.
  induction s as [|b t IH]; cbn.
  - now destruct (is_white c).
  - destruct (is_white b); auto.
Qed.
Lemma rstrip_cons b t : rstrip (b :: t) = match rstrip t with [] => if is_white b then [] else [b] | x => b :: x end.
Proof.
  unfold rstrip. cbn [rev]. rewrite strip_left_snoc. destruct (strip_left (rev t)) as [|x y] eqn:E.
  - cbn. now destruct (is_white b).
  - rewrite rev_unit. destruct (rev (x :: y)) as [|u v] eqn:R; auto. apply (f_equal (@length Z)) in R. rewrite rev_length in R. discriminate.
Qed.
Lemma rstrip_nonwhite y c x : is_white c = false -> rstrip (y ++ c :: x) = y ++ c :: rstrip x.
Proof.
  intros W. induction y as [|b y IH]; cbn [app].
  - rewrite rstrip_cons, W. now destruct (rstrip x).
  - rewrite rstrip_cons, IH. now destruct y.
Qed.
Lemma rstrip_idem s : rstrip (rstrip s) = rstrip s.
Proof.
  induction s as [|b t IH]; [reflexivity|]. rewrite rstrip_cons. destruct (rstrip t) as [|x y] eqn:E.
  - destruct (is_white b) eqn:W; [reflexivity|]. rewrite rstrip_cons. cbn. now rewrite W.
  - rewrite rstrip_cons. now rewrite IH.
Qed.
Lemma strip_left_rstrip s : strip_left (rstrip s) = rstrip (strip_left s).
Proof.
  induction s as [|b t IH]; [reflexivity|]. rewrite rstrip_cons. cbn [strip_left]. destruct (is_white b) eqn:W.
  - rewrite <- IH. destruct (rstrip t) eqn:E; [reflexivity|]. cbn [strip_left]. now rewrite W.
  - rewrite rstrip_cons, W. destruct (rstrip t); cbn [strip_left]; now rewrite W.
Qed.
Lemma strip_rstrip s : strip (rstrip s) = strip s.
Proof. rewrite !strip_eq, strip_left_rstrip. apply rstrip_idem. Qed.
Lemma rstrip_prefix s : exists t, s = rstrip s ++ t.
Proof.
  induction s as [|b t [u E]]; [now exists []|]. rewrite rstrip_cons. destruct (rstrip t) as [|x y] eqn:R.
  - destruct (is_white b); [now exists (b :: t)|now exists t].
  - exists u. cbn in *. now rewrite E at 1.
Qed.
Lemma rstrip_Forall P s : Forall P s -> Forall P (rstrip s).
Proof. intros F. destruct (rstrip_prefix s) as [t E]. rewrite E in F. apply Forall_app in F. tauto. Qed.

(* Go's TrimSpace on ASCII texts *)
Lemma space_white b : ascii b -> IsSpace b = is_white b.
Proof.
  unfold ascii, IsSpace, is_white, between. intros A.
  destruct (Z.leb_spec 9 b), (Z.leb_spec b 13), (Z.eqb_spec b 32), (Z.eqb_spec b 133), (Z.eqb_spec b 160), (Z.eqb_spec b 5760), (Z.leb_spec 8192 b), (Z.leb_spec b 8202),
    (Z.eqb_spec b 8232), (Z.eqb_spec b 8233), (Z.eqb_spec b 8239), (Z.eqb_spec b 8287), (Z.eqb_spec b 12288); try lia; reflexivity.
Qed.
Lemma decode_ascii b t : ascii b -> DecodeRune (b :: t) = (b, 1).
Proof. unfold ascii. intros A. cbn. destruct (Z.ltb_spec b 128); [reflexivity|lia]. Qed.
Lemma decode_last_ascii b t : ascii b -> DecodeLast (b :: t) = (b, 1).
Proof. unfold ascii. intros A. cbn. destruct (Z.ltb_spec b 128); [reflexivity|lia]. Qed.
Lemma trim_left_ascii s : Forall ascii s -> forall n, (length s <= n)%nat -> trim_left_loop n s = strip_left s.
Proof.
  induction 1 as [|b t A F IH]; intros [|n] L; try reflexivity; [cbn in L; lia|]. cbn [trim_left_loop strip_left]. rewrite decode_ascii, space_white by assumption.
  destruct (is_white b); [|reflexivity]. change (Z.to_nat 1) with 1%nat. cbn [skipn]. apply IH. cbn in L. lia.
Qed.
Lemma trim_right_ascii s : Forall ascii s -> forall n, (length s <= n)%nat -> trim_right_loop n s = strip_left s.
Proof.
  induction 1 as [|b t A F IH]; intros [|n] L; try reflexivity; [cbn in L; lia|]. cbn [trim_right_loop strip_left]. rewrite decode_last_ascii, space_white by assumption.
  destruct (is_white b); [|reflexivity]. change (Z.to_nat 1) with 1%nat. cbn [skipn]. apply IH. cbn in L. lia.
Qed.
Lemma strip_left_Forall P s : Forall P s -> Forall P (strip_left s).
Proof. induction 1 as [|b t A F IH]; cbn; auto. destruct (is_white b); auto. Qed.
Lemma TrimSpace_ascii s : Forall ascii s -> TrimSpace s = strip s.
Proof.
  intros F. unfold TrimSpace, TrimLeftSpace, TrimRightSpace. rewrite trim_left_ascii by auto. unfold strip. f_equal.
  apply trim_right_ascii; [|now rewrite rev_length]. apply Forall_rev. now apply strip_left_Forall.
Qed.

(* ---- splitting ---- *)
Lemma Split_none c s : ~ In c s -> Split c s = [s].
Proof.
  induction s as [|b t IH]; intros N; [reflexivity|]. cbn. destruct (Z.eqb_spec b c) as [->|]; [exfalso; apply N; now left|].
  rewrite IH by (intro; apply N; now right). reflexivity.
Qed.
Lemma Split_app c s t : ~ In c s -> Split c (s ++ c :: t) = s :: Split c t.
Proof.
  induction s as [|b s IH]; intros N; cbn.
  - now rewrite Z.eqb_refl.
  - destruct (Z.eqb_spec b c) as [->|]; [exfalso; apply N; now left|]. now rewrite IH by (intro; apply N; now right).
Qed.

Lemma field_no c f : Forall field_char f -> c = 59 \/ c = 35 -> ~ In c f.
Proof. intros F C I. rewrite Forall_forall in F. apply F in I. unfold field_char in I. lia. Qed.
Lemma field_ascii f : Forall field_char f -> Forall ascii f.
Proof. apply Forall_impl. unfold field_char, ascii. intros. lia. Qed.
Lemma blank_ascii g : Forall blank g -> Forall ascii g.
Proof. apply Forall_impl. unfold blank, ascii. intros. lia. Qed.
Lemma join_ascii fs : Forall (Forall field_char) fs -> Forall ascii (join fs).
Proof.
  induction 1 as [|f fs F FS IH]; cbn; constructor; [unfold ascii; lia|]. apply Forall_app. split; auto. now apply field_ascii.
Qed.
Lemma join_no_hash fs : Forall (Forall field_char) fs -> ~ In 35 (join fs).
Proof.
  induction 1 as [|f fs F FS IH]; cbn; auto. intros [|I]; [discriminate|]. apply in_app_iff in I. destruct I as [I|]; [|auto].
  now apply (field_no 35) in F; auto.
Qed.
Lemma blank_no_hash g : Forall blank g -> ~ In 35 g.
Proof. intros F I. rewrite Forall_forall in F. apply F in I. unfold blank in I. lia. Qed.
Lemma strip_left_blank g s : Forall blank g -> strip_left (g ++ 59 :: s) = 59 :: s.
Proof.
  induction 1 as [|b g B F IH]; [reflexivity|]. cbn [app strip_left]. replace (is_white b) with true; auto.
  destruct B as [-> | ->]; reflexivity.
Qed.

Lemma fields_split : forall fs f, Forall field_char f -> Forall (Forall field_char) fs ->
  map TrimSpace (Split 59 (rstrip (f ++ join fs))) = map strip (f :: fs).
Proof.
  induction fs as [|g fs IH]; intros f F FS.
  - cbn [join]. rewrite app_nil_r. rewrite Split_none.
    + cbn [map]. rewrite TrimSpace_ascii by (apply rstrip_Forall; now apply field_ascii). now rewrite strip_rstrip.
    + apply field_no; auto. now apply rstrip_Forall.
  - inversion FS; subst. cbn [join]. rewrite rstrip_nonwhite by reflexivity. rewrite Split_app by (apply field_no; auto).
    cbn [map]. rewrite IH by assumption. cbn [map]. f_equal. apply TrimSpace_ascii. now apply field_ascii.
Qed.

Lemma fields_split_exact : forall fs f, Forall field_char f -> Forall (Forall field_char) fs ->
  Split 59 (rstrip (f ++ join fs)) = rstrip_last (f :: fs).
Proof.
  induction fs as [|g fs IH]; intros f F FS.
  - cbn [join rstrip_last]. rewrite app_nil_r. apply Split_none. apply field_no; auto. now apply rstrip_Forall.
  - inversion FS; subst. cbn [join]. rewrite rstrip_nonwhite by reflexivity. rewrite Split_app by (apply field_no; auto).
    rewrite IH by assumption. reflexivity.
Qed.

Lemma trimleft_other c s : match s with b :: _ => b <> c | [] => True end -> TrimLeftByte c s = s.
Proof. destruct s as [|b t]; [reflexivity|]. cbn. intros N. destruct (Z.eqb_spec b c); [contradiction|reflexivity]. Qed.

Lemma body_fields gap fs : Forall blank gap -> Forall (Forall field_char) fs -> fs <> [] -> match fs with [] :: _ :: _ => False | _ => True end ->
  map TrimSpace (Split 59 (TrimLeftByte 59 (TrimSpace (gap ++ join fs)))) = map strip fs.
Proof.
  intros G FS NE FF. rewrite TrimSpace_ascii by (apply Forall_app; split; [now apply blank_ascii|now apply join_ascii]).
  destruct fs as [|f fs]; [congruence|]. inversion FS as [|? ? F FS']; subst. cbn [join]. rewrite strip_eq, strip_left_blank by assumption.
  change (59 :: f ++ join fs) with ([] ++ 59 :: (f ++ join fs)). rewrite rstrip_nonwhite by reflexivity. cbn [app TrimLeftByte]. change (59 =? 59) with true. cbn iota.
  rewrite trimleft_other; [now apply fields_split|].
  destruct fs as [|g fs].
  - cbn [join]. rewrite app_nil_r. destruct (rstrip f) as [|b t] eqn:R; auto.
    assert (FR : Forall field_char (rstrip f)) by now apply rstrip_Forall. rewrite R in FR. inversion FR; subst. unfold field_char in *. lia.
  - cbn [join]. rewrite rstrip_nonwhite by reflexivity. destruct f as [|b t]; [contradiction|]. cbn. inversion F; subst. unfold field_char in *. lia.
Qed.
Lemma body_fields_exact gap fs : Forall blank gap -> Forall (Forall field_char) fs -> fs <> [] -> match fs with [] :: _ :: _ => False | _ => True end ->
  Split 59 (TrimLeftByte 59 (TrimSpace (gap ++ join fs))) = rstrip_last fs.
Proof.
  intros G FS NE FF. rewrite TrimSpace_ascii by (apply Forall_app; split; [now apply blank_ascii|now apply join_ascii]).
  destruct fs as [|f fs]; [congruence|]. inversion FS as [|? ? F FS']; subst. cbn [join]. rewrite strip_eq, strip_left_blank by assumption.
  change (59 :: f ++ join fs) with ([] ++ 59 :: (f ++ join fs)). rewrite rstrip_nonwhite by reflexivity. cbn [app TrimLeftByte]. change (59 =? 59) with true. cbn iota.
  rewrite trimleft_other; [now apply fields_split_exact|].
  destruct fs as [|g fs].
  - cbn [join]. rewrite app_nil_r. destruct (rstrip f) as [|b t] eqn:R; auto.
    assert (FR : Forall field_char (rstrip f)) by now apply rstrip_Forall. rewrite R in FR. inversion FR; subst. unfold field_char in *. lia.
  - cbn [join]. rewrite rstrip_nonwhite by reflexivity. destruct f as [|b t]; [contradiction|]. cbn. inversion F; subst. unfold field_char in *. lia.
Qed.

(* ---- numbers ---- *)
Lemma digit_range up d : 0 <= d < 16 -> let c := digit_char up d in 48 <= c <= 57 \/ 65 <= c <= 70 \/ 97 <= c <= 102.
Proof. unfold digit_char. intros H. destruct (Z.ltb_spec d 10), up; cbv zeta; lia. Qed.
Lemma digit_val up d : 0 <= d < 16 -> hexval (digit_char up d) = Some d.
Proof.
  unfold hexval, digit_char, between. intros H. destruct (Z.ltb_spec d 10).
  - destruct (Z.leb_spec 48 (48 + d)), (Z.leb_spec (48 + d) 57); try lia. cbn [andb]. f_equal. lia.
  - destruct up.
    + destruct (Z.leb_spec 48 (55 + d)), (Z.leb_spec (55 + d) 57), (Z.leb_spec 97 (55 + d)), (Z.leb_spec (55 + d) 102), (Z.leb_spec 65 (55 + d)), (Z.leb_spec (55 + d) 70); try lia; cbn [andb]; f_equal; lia.
    + destruct (Z.leb_spec 48 (87 + d)), (Z.leb_spec (87 + d) 57), (Z.leb_spec 97 (87 + d)), (Z.leb_spec (87 + d) 102); try lia; cbn [andb]; f_equal; lia.
Qed.
Lemma hex_loop_digits ds : Forall (fun x : bool * Z => 0 <= snd x < 16) ds -> forall acc,
  hex_loop acc (map (fun x => digit_char (fst x) (snd x)) ds) = Some (fold_left (fun acc x => acc * 16 + snd x) ds acc).
Proof.
  induction 1 as [|[up d] ds D F IH]; intros acc; [reflexivity|]. cbn [map hex_loop fold_left fst snd] in *. rewrite digit_val by assumption. apply IH.
Qed.
Lemma numeral_value h v : numeral h v -> v < 2 ^ 31 -> ParseInt h = Some v.
Proof.
  intros (ds & NE & F & -> & ->) L. unfold ParseInt. rewrite hex_loop_digits by assumption. destruct (Z.ltb_spec (fold_left (fun acc x => acc * 16 + snd x) ds 0) (2 ^ 31)); [reflexivity|lia].
Qed.
Definition hexchar (c : Z) : Prop := 48 <= c <= 57 \/ 65 <= c <= 70 \/ 97 <= c <= 102.
Lemma numeral_chars h v : numeral h v -> h <> [] /\ Forall hexchar h.
Proof.
  intros (ds & NE & F & -> & _). split; [destruct ds; cbn; congruence|]. apply Forall_map. revert F. apply Forall_impl. intros [up d] H. now apply digit_range.
Qed.

Section Digits.
Context (isNd : Z -> bool).
Lemma hexchar_yes c : hexchar c -> isHexDigit isNd c = true.
Proof.
  unfold hexchar, isHexDigit, IsDigit, between. intros H. destruct (Z.leb_spec c 255); [|lia].
  destruct (Z.leb_spec 48 c), (Z.leb_spec c 57), (Z.leb_spec 97 c), (Z.leb_spec c 102), (Z.leb_spec 65 c), (Z.leb_spec c 70); try lia; reflexivity.
Qed.
Lemma ascii_no c : c = 32 \/ c = 9 \/ c = 59 \/ c = 46 -> isHexDigit isNd c = false.
Proof. now intros [-> | [-> | [-> | ->]]]. Qed.

(* ---- walking over a line ---- *)
(* the lookahead [c] stands behind [p] and before [r] *)
Definition at_pos (buf : linebuf) (p : list Z) (c : Z) (r : list Z) (ls : list (list Z)) : Prop :=
  on buf (p ++ c :: r) ls /\ ByteCursor buf = zlen p + 1 /\ Lookahead buf = c /\ ascii c.

Lemma skip_here {A} (p : list A) c r k : k = zlen p + 1 -> skipn (Z.to_nat k) (p ++ c :: r) = r.
Proof. intros ->. apply (cut_here (c :: r) p 1). unfold zlen. lia. Qed.

Lemma at_step n buf p c d r ls : at_pos buf p c (d :: r) ls -> c <> 10 -> ascii d ->
  exists buf', matches n (fun arg => arg =? Lookahead buf) buf = Ok (true, buf') /\ at_pos buf' (p ++ [c]) d r ls /\ CurrentLine buf' = CurrentLine buf.
Proof.
  intros (O & BC & LA & AC) N AD. rewrite <- LA in N. destruct (matches_ok n _ _ _ O N) as (b' & E & O' & A). exists b'. split; auto.
  destruct (AdvanceCursor_ok _ _ _ O) as (b2 & A2 & _ & CL & C). rewrite A in A2. injection A2 as <-. split; auto.
  rewrite (skip_here p c (d :: r)) in C by assumption. rewrite decode_ascii in C by assumption. cbn [fst snd] in C.
  destruct C as [(C1 & _)|(C1 & C2 & C3)].
  - rewrite zlen_app, !zlen_cons in C1. pose proof (zlen_nonneg r). lia.
  - split; [now rewrite <- app_assoc|]. split; [rewrite zlen_app; change (zlen [c]) with 1; lia|]. split; auto.
Qed.

Lemma walk pr ls : pr 10 = false -> forall w n buf p d r k c0 r0, c0 :: r0 = w ++ d :: r -> at_pos buf p c0 r0 ls ->
  Forall (fun c => pr c = true /\ ascii c) w -> pr d = false -> ascii d -> (length w < n)%nat ->
  exists buf', match_while n pr buf k = Ok (k + zlen w, buf') /\ at_pos buf' (p ++ w) d r ls /\ CurrentLine buf' = CurrentLine buf.
Proof.
  intros P10. induction w as [|x w IH]; intros n buf p d r k c0 r0 E AT FW PD AD F; (destruct n; [cbn in F; lia|]); cbn [match_while].
  - injection E as <- <-. pose proof AT as (O & BC & LA & AC). rewrite LA, PD. exists buf. rewrite app_nil_r. unfold zlen. cbn. rewrite Z.add_0_r. auto.
  - cbn [app] in E. injection E as -> ->. pose proof AT as (O & BC & LA & AC). inversion FW as [|? ? [PX AX] FW']; subst. rewrite PX.
    assert (N : Lookahead buf <> 10) by (intros E; rewrite E in PX; congruence).
    assert (X : exists d' r', w ++ d :: r = d' :: r' /\ ascii d').
    { destruct w as [|y w]; [exists d, r; auto|]. exists y, (w ++ d :: r). inversion FW'; subst. tauto. }
    destruct X as (d' & r' & E & AD'). rewrite E in AT.
    destruct (at_step (S n) buf p (Lookahead buf) d' r' ls AT N AD') as (b1 & M1 & AT1 & CL1).
    rewrite M1. cbn [rbind].
    destruct (IH n b1 (p ++ [Lookahead buf]) d r (k + 1) d' r' (eq_sym E) AT1 FW' PD AD) as (b2 & -> & AT2 & CL2); [cbn in F; lia|].
    exists b2. rewrite <- app_assoc in AT2. cbn [app] in AT2. split; [|split; [assumption|congruence]]. do 2 f_equal. rewrite zlen_cons. lia.
Qed.

(* the tail of an item behind its number: a blank or a semicolon *)
Lemma tail_head gap fs (c : list Z) : Forall blank gap -> fs <> [] -> exists d r, gap ++ join fs ++ c = d :: r /\ (d = 32 \/ d = 9 \/ d = 59).
Proof.
  intros G NE. destruct gap as [|b g].
  - destruct fs as [|f fs]; [congruence|]. cbn. eexists _, _. split; [reflexivity|auto].
  - inversion G as [|? ? B]; subst. cbn. eexists _, _. split; [reflexivity|]. destruct B; auto.
Qed.

Lemma slice_mid {A} (p h r : list A) a b : a = zlen p -> b = zlen p + zlen h -> zslice (p ++ h ++ r) a b = Some h.
Proof.
  intros -> ->. unfold zslice. pose proof (zlen_nonneg p). pose proof (zlen_nonneg h). pose proof (zlen_nonneg r).
  rewrite !zlen_app. destruct (Z.leb_spec 0 (zlen p)), (Z.leb_spec (zlen p) (zlen p + zlen h)), (Z.leb_spec (zlen p + zlen h) (zlen p + (zlen h + zlen r))); try lia.
  cbn [andb]. f_equal. replace (Z.to_nat (zlen p)) with (length p) by (unfold zlen; lia).
  rewrite skipn_app, skipn_all, Nat.sub_diag. cbn [app skipn]. replace (Z.to_nat (zlen p + zlen h - zlen p)) with (length h) by (unfold zlen; lia).
  rewrite firstn_app, firstn_all, Nat.sub_diag. cbn. apply app_nil_r.
Qed.

Lemma hex_forall h : Forall hexchar h -> Forall (fun c => isHexDigit isNd c = true /\ ascii c) h.
Proof. apply Forall_impl. intros c H. split; [now apply hexchar_yes|]. unfold hexchar, ascii in *. lia. Qed.

Lemma zlen_pos {A} (h : list A) : h <> [] -> 0 < zlen h.
Proof. destruct h; [congruence|]. rewrite zlen_cons. pose proof (zlen_nonneg h). lia. Qed.

Lemma range_item n t buf l ls it : on buf l ls -> Lookahead buf = fst (DecodeRune l) -> ByteCursor buf = snd (DecodeRune l) ->
  written it l -> item_ok it -> (length l + 1 < n)%nat ->
  exists buf' gap, Forall blank gap /\ on buf' l ls /\ CurrentLine buf' = CurrentLine buf /\
    EncodeRune (Lookahead buf') ++ skipn (Z.to_nat (ByteCursor buf')) l = gap ++ join (it_fields it) ++ match it_comment it with None => [] | Some c => 35 :: c end /\
    scan_rune_range isNd n t buf = Ok (set_type (set_range t (it_from it) (match it_to it with Some v => v | None => it_from it end))
      (match it_to it with Some _ => rangeDataItem | None => singleDataItem end), Some ScanItemBody, buf').
Proof.
  intros O LA BC (h & rg & gap & NUM & RG & G & EL) (IF & IT & FNE & FOK & CM) F.
  destruct (numeral_chars _ _ NUM) as [HNE HC].
  set (tail := gap ++ join (it_fields it) ++ match it_comment it with None => [] | Some c => 35 :: c end) in *.
  destruct (tail_head gap (it_fields it) (match it_comment it with None => [] | Some c => 35 :: c end) G FNE) as (d & r & TL & TD). fold tail in TL.
  assert (AD : ascii d) by (unfold ascii; lia).
  assert (ENC : forall x, ascii x -> EncodeRune x = [x]).
  { unfold ascii. intros x A. unfold EncodeRune, scalar, between. destruct (Z.leb_spec 0 x), (Z.leb_spec x 55295); try lia. cbn. destruct (Z.ltb_spec x 128); [reflexivity|lia]. }
  (* the start *)
  assert (ST : exists c0 r0, l = c0 :: r0 /\ at_pos buf [] c0 r0 ls).
  { destruct h as [|c0 h']; [congruence|]. exists c0, (h' ++ rg ++ tail). split; [now rewrite EL|].
    inversion HC; subst. assert (A0 : ascii c0) by (unfold hexchar, ascii in *; lia). unfold at_pos. cbn [app].
    cbn [app] in LA, BC. rewrite decode_ascii in LA, BC by assumption. split; [exact O|]. split; [exact BC|]. split; [exact LA|exact A0]. }
  destruct ST as (c0 & r0 & EL0 & AT0). rewrite EL0 in EL.
  unfold scan_rune_range.
  assert (MK : (if 0 <? ByteCursor buf then ByteCursor buf - 1 else ByteCursor buf) = 0).
  { destruct AT0 as (_ & B & _). rewrite B. reflexivity. }
  rewrite MK. clear MK.
  assert (LEN : (length h < n)%nat). { rewrite EL0, EL in F. rewrite !app_length in F. lia. }
  destruct (it_to it) as [v2|] eqn:TO.
  - destruct RG as (h2 & -> & NUM2). destruct (numeral_chars _ _ NUM2) as [HNE2 HC2].
    (* digits *)
    destruct (walk (isHexDigit isNd) ls (hex_10 isNd) h n buf [] 46 (46 :: h2 ++ tail) 0 c0 r0) as (b1 & -> & AT1 & CL1); auto.
    { now apply hex_forall. } { unfold ascii. lia. }
    cbn [rbind app]. cbn [app] in AT1. destruct AT1 as (O1 & BC1 & LA1 & A1).
    assert (W1 : hex_word b1 0 (ByteCursor b1 - 1) = Ok (Some (Some (it_from it)))).
    { unfold hex_word. rewrite BC1. pose proof (zlen_pos _ HNE). destruct (Z.ltb_spec 0 (zlen h + 1 - 1)); [|lia].
      rewrite (on_text _ _ _ O1). rewrite (slice_mid [] h (46 :: 46 :: h2 ++ tail)) by (cbn; lia). cbn [lift rbind]. now rewrite (numeral_value _ _ NUM IF). }
    rewrite W1. cbn [rbind].
    (* dots *)
    destruct h2 as [|c2 h2']; [congruence|].
    assert (X2 : hexchar c2) by (inversion HC2; auto).
    destruct (walk (fun la => la =? 46) ls eq_refl [46; 46] n b1 h c2 (h2' ++ tail) 0 46 (46 :: (c2 :: h2') ++ tail)) as (b2 & -> & AT2 & CL2); auto.
    { split; auto. } 
    { unfold hexchar in X2. destruct (Z.eqb_spec c2 46); [lia|reflexivity]. } { unfold hexchar, ascii in *; lia. }
    { rewrite EL0, EL in F. rewrite !app_length in F. cbn [length] in *. lia. }
    cbn [rbind]. change (0 + zlen [46; 46] =? 0) with false. cbn iota. cbv zeta.
    (* digits *)
    assert (H2 := AT2). destruct H2 as (O2 & BC2 & LA2 & A2).
    destruct (walk (isHexDigit isNd) ls (hex_10 isNd) (c2 :: h2') n b2 (h ++ [46; 46]) d r 0 c2 (h2' ++ tail)) as (b3 & -> & AT3 & CL3); auto.
    { now rewrite TL. } { now apply hex_forall. } { apply ascii_no. tauto. }
    { rewrite EL0, EL in F. rewrite !app_length in F. cbn [length] in *. lia. }
    cbn [rbind]. destruct AT3 as (O3 & BC3 & LA3 & A3).
    assert (W3 : hex_word b3 (ByteCursor b2 - 1) (ByteCursor b3 - 1) = Ok (Some (Some v2))).
    { unfold hex_word. rewrite BC2, BC3. rewrite !zlen_app. pose proof (zlen_pos _ HNE2).
      match goal with |- context [if ?a <? ?b then _ else _] => destruct (Z.ltb_spec a b); [|lia] end.
      rewrite (on_text _ _ _ O3). rewrite <- (app_assoc (h ++ [46; 46])). rewrite (slice_mid (h ++ [46; 46]) (c2 :: h2') (d :: r)) by (rewrite ?zlen_app, ?zlen_cons; lia).
      cbn [lift rbind]. rewrite (numeral_value _ _ NUM2 IT). reflexivity. }
    rewrite W3. cbn [rbind].
    assert (LE : l = (h ++ [46; 46]) ++ (c2 :: h2') ++ d :: r) by (rewrite EL0, EL, TL; now rewrite <- !app_assoc).
    exists b3, gap. split; [assumption|]. split; [rewrite LE; now rewrite (app_assoc (h ++ [46;46]))|]. split; [congruence|]. split.
    + rewrite LA3, ENC by assumption. fold tail. rewrite TL. cbn [app]. f_equal. rewrite LE, (app_assoc (h ++ [46;46])). now apply skip_here.
    + destruct t; reflexivity.
  - subst rg. cbn [app] in EL.
    destruct (walk (isHexDigit isNd) ls (hex_10 isNd) h n buf [] d r 0 c0 r0) as (b1 & -> & AT1 & CL1); auto.
    { now rewrite EL, TL. } { now apply hex_forall. } { apply ascii_no. tauto. }
    cbn [rbind app]. cbn [app] in AT1. assert (H1 := AT1). destruct H1 as (O1 & BC1 & LA1 & A1).
    assert (W1 : hex_word b1 0 (ByteCursor b1 - 1) = Ok (Some (Some (it_from it)))).
    { unfold hex_word. rewrite BC1. pose proof (zlen_pos _ HNE). destruct (Z.ltb_spec 0 (zlen h + 1 - 1)); [|lia].
      rewrite (on_text _ _ _ O1). rewrite (slice_mid [] h (d :: r)) by (cbn; lia). cbn [lift rbind]. now rewrite (numeral_value _ _ NUM IF). }
    rewrite W1. cbn [rbind].
    destruct (walk (fun la => la =? 46) ls eq_refl [] n b1 h d r 0 d r) as (b2 & -> & AT2 & CL2); auto.
    { destruct (Z.eqb_spec d 46); [lia|reflexivity]. } { cbn. lia. }
    cbn [rbind]. change (0 + zlen [] =? 0) with true. cbn iota. rewrite app_nil_r in AT2. destruct AT2 as (O2 & BC2 & LA2 & A2).
    assert (LE : l = h ++ d :: r) by (now rewrite EL0, EL, TL).
    exists b2, gap. split; [assumption|]. split; [now rewrite LE|]. split; [congruence|]. split.
    + rewrite LA2, ENC by assumption. fold tail. rewrite TL. cbn [app]. f_equal. rewrite LE. now apply skip_here.
    + destruct t; reflexivity.
Qed.
End Digits.
