(* UcdGenProofs.v -- the generators on well-formed files, break tests, test files. *)
From Coq Require Import List ZArith Lia Bool Arith.
From Verif Require Import Base RuneWrite Segmenter Utf8 Utf8Proofs LineBuf Ucd UcdSpec LineBufProofs UcdParse UcdParseProofs UcdItemProofs UcdFileProofs.
Import ListNotations.
Open Scope Z_scope.

Lemma list_eqb_spec a b : list_eqb a b = true <-> a = b.
Proof.
  revert b. induction a as [|x s IH]; intros [|y t]; cbn; try (split; congruence). rewrite andb_true_iff, Z.eqb_eq, IH.
  split; [intros [-> ->]; auto|intros E; injection E; auto].
Qed.
Lemma list_eqb_dec a b : list_eqb a b = if list_eq_dec Z.eq_dec a b then true else false.
Proof.
  destruct (list_eq_dec Z.eq_dec a b) as [E|N]; [now apply list_eqb_spec|]. destruct (list_eqb a b) eqn:E; auto. apply list_eqb_spec in E. congruence.
Qed.

(* ---- fields ---- *)
Lemma TrimSpace_nil : TrimSpace [] = []. Proof. reflexivity. Qed.
Lemma Field_ok t i : 1 <= i -> Field t i = Ok (nth (Z.to_nat (i - 1)) (Fields t) []).
Proof.
  intros I. unfold Field. destruct (Z.ltb_spec 0 (zlen (Fields t))); cbn [andb].
  - destruct (Z.leb_spec i (zlen (Fields t))).
    + unfold zget. destruct (Z.leb_spec 0 (i - 1)), (Z.ltb_spec (i - 1) (zlen (Fields t))); try lia. cbn [andb].
      rewrite (nth_error_nth' (Fields t) []) by (unfold zlen in *; lia). reflexivity.
    + rewrite nth_overflow; [reflexivity|unfold zlen in *; lia].
  - rewrite nth_overflow; [reflexivity|unfold zlen in *; lia].
Qed.
Lemma denotes_field x t k : denotes x t -> TrimSpace (nth k (Fields t) []) = strip (nth k (it_fields (snd x)) []).
Proof.
  destruct x as [ln it]. intros (_ & _ & _ & _ & _ & F & _). cbn [snd].
  rewrite <- (map_nth TrimSpace), <- (map_nth strip). rewrite F. reflexivity.
Qed.

(* ---- tablegen ---- *)
Fixpoint lookup (tbl : list (list Z * collector)) (k : list Z) : option collector :=
  match tbl with [] => None | (c, rt) :: t => if list_eqb c k then Some rt else lookup t k end.
Lemma lookup_append tbl cat l r k : lookup (tg_append tbl cat l r) k =
  if list_eqb cat k then Some (Append (match lookup tbl cat with Some rt => rt | None => new_collector end) l r) else lookup tbl k.
Proof.
  induction tbl as [|[c rt] t IH]; cbn [tg_append lookup].
  - cbn [lookup]. now destruct (list_eqb cat k).
  - destruct (list_eqb c cat) eqn:E.
    + apply list_eqb_spec in E. subst c. cbn [lookup]. now destruct (list_eqb cat k).
    + cbn [lookup]. destruct (list_eqb c k) eqn:E2.
      * apply list_eqb_spec in E2. subst c. destruct (list_eqb cat k) eqn:E3; auto. apply list_eqb_spec in E3. subst k.
        assert (list_eqb cat cat = true) by now apply list_eqb_spec. congruence.
      * exact IH.
Qed.
Lemma cat_name_inj p a b : cat_name p a = cat_name p b -> a = b.
Proof. unfold cat_name. destruct p; auto. intros E. apply app_inv_head in E. now injection E. Qed.

(* the table after some items *)
Definition table_of (prefix : list Z) (f : nat) (its : list item) (tbl : list (list Z * collector)) : Prop :=
  forall cat, cat <> [] -> lookup tbl (cat_name prefix cat) = match ranges_in f cat its with [] => None | rs => Some (collect rs) end.

Lemma collect_snoc rs l r : collect (rs ++ [(l, r)]) = Append (collect rs) l r.
Proof. unfold collect. now rewrite fold_left_app. Qed.
Lemma ranges_in_snoc f cat its it : ranges_in f cat (its ++ [it]) = ranges_in f cat its ++ if list_eq_dec Z.eq_dec (category f it) cat then [item_range it] else [].
Proof. unfold ranges_in. rewrite filter_app, map_app. cbn. now destruct (list_eq_dec Z.eq_dec (category f it) cat). Qed.

Lemma tg_items prefix f : (2 <= f)%nat -> forall ps its done tbl, Forall2 denotes its ps -> table_of prefix f done tbl ->
  exists tbl', tg_collect prefix (Z.of_nat f - 1) tbl ps = Ok tbl' /\ table_of prefix f (done ++ map snd its) tbl'.
Proof.
  intros F. induction ps as [|p ps IH]; intros its done tbl D T; inversion D as [|x y its' ps' DX DR]; subst; cbn [tg_collect map].
  - exists tbl. now rewrite app_nil_r.
  - unfold tg_callback. destruct (Range p) as [l r] eqn:R. rewrite Field_ok by lia. cbn [rbind].
    pose proof (denotes_field x p (f - 2) DX) as DF. replace (Z.to_nat (Z.of_nat f - 1 - 1)) with (f - 2)%nat by lia. rewrite DF.
    fold (category f (snd x)).
    assert (RX : item_range (snd x) = (l, r)). { destruct x as [ln it]. destruct DX as (_ & _ & _ & _ & DX & _). cbn [snd]. unfold item_range. congruence. }
    assert (STEP : exists tbl1, (match category f (snd x) with [] => Ok tbl | t => Ok (tg_append tbl (cat_name prefix t) l r) end) = Ok tbl1 /\ table_of prefix f (done ++ [snd x]) tbl1).
    { destruct (category f (snd x)) as [|c0 cs] eqn:C.
      - exists tbl. split; auto. intros cat NE. rewrite ranges_in_snoc, C. destruct (list_eq_dec Z.eq_dec [] cat) as [E|N]; [congruence|]. rewrite app_nil_r. auto.
      - eexists. split; [reflexivity|]. intros cat NE. rewrite ranges_in_snoc, C, lookup_append, list_eqb_dec.
        destruct (list_eq_dec Z.eq_dec (cat_name prefix (c0 :: cs)) (cat_name prefix cat)) as [E|N].
        + apply cat_name_inj in E. subst cat. destruct (list_eq_dec Z.eq_dec (c0 :: cs) (c0 :: cs)) as [_|N]; [|congruence].
          rewrite (T _ NE), RX. destruct (ranges_in f (c0 :: cs) done) as [|x0 xs] eqn:RI; cbn [app].
          * reflexivity.
          * change (x0 :: xs ++ [(l, r)]) with ((x0 :: xs) ++ [(l, r)]). now rewrite collect_snoc.
        + destruct (list_eq_dec Z.eq_dec (c0 :: cs) cat) as [E|_]; [congruence|]. rewrite app_nil_r. auto. }
    destruct STEP as (tbl1 & -> & T1). cbn [rbind].
    destruct (IH its' (done ++ [snd x]) tbl1 DR T1) as (tbl' & E & T'). exists tbl'. split; [exact E|]. now rewrite <- app_assoc in T'.
Qed.

Lemma tablegen_ok isNd n prefix f file sizes ls its : short_lines file -> lines_of file ls -> contents 1 ls its -> (length file + 3 <= n)%nat -> (2 <= f)%nat ->
  exists tbl, tablegen isNd n prefix (Z.of_nat f) (NewScanner file sizes EOF) = Ok tbl /\ table_of prefix f (map snd its) tbl.
Proof.
  intros SH L C N F. destruct (parse_items isNd n file sizes ls its SH L C N) as (ps & E & P). unfold tablegen. rewrite E. cbn [rbind].
  assert (T0 : table_of prefix f [] []) by (intros cat NE; reflexivity).
  destruct its as [|x its].
  - subst ps. cbn. eauto.
  - destruct P as (doc & ps' & -> & _ & FD & _ & D). cbn [tg_collect]. unfold tg_callback. destruct (Range doc). rewrite Field_ok by lia. rewrite FD.
    cbn [rbind]. replace (nth _ [] []) with (@nil Z) by (now destruct (Z.to_nat _)). rewrite TrimSpace_nil. cbn [rbind].
    destruct (tg_items prefix f F ps' (x :: its) [] [] D T0) as (tbl & E2 & T). eauto.
Qed.

(* ---- brackets ---- *)
Lemma strip_left_nonwhite b s : is_white b = false -> strip_left (b :: s) = b :: s.
Proof. intros H. cbn. now rewrite H. Qed.
Lemma strip_left_blanks g s : Forall blank g -> strip_left (g ++ s) = strip_left s.
Proof. induction 1 as [|b g [-> | ->] G IH]; auto. Qed.
Lemma hexchar_white c : hexchar c -> is_white c = false.
Proof. unfold hexchar, is_white. intros H. destruct (Z.leb_spec 9 c), (Z.leb_spec c 13), (Z.eqb_spec c 32); try lia; reflexivity. Qed.
Lemma strip_numeral g1 h g2 v : Forall blank g1 -> Forall blank g2 -> numeral h v -> strip (g1 ++ h ++ g2) = h.
Proof.
  intros G1 G2 NUM. destruct (numeral_chars _ _ NUM) as [NE HC]. unfold strip. rewrite strip_left_blanks by assumption.
  destruct h as [|c h]; [congruence|]. inversion HC; subst. cbn [app]. rewrite strip_left_nonwhite by (now apply hexchar_white).
  change (c :: h ++ g2) with ((c :: h) ++ g2). rewrite rev_app_distr, strip_left_blanks by (now apply Forall_rev).
  destruct (rev (c :: h)) as [|d r] eqn:E; [apply (f_equal (@length Z)) in E; rewrite rev_length in E; discriminate|].
  assert (HD : hexchar d). { rewrite Forall_forall in HC. apply HC. apply in_rev. rewrite E. now left. }
  rewrite strip_left_nonwhite by (now apply hexchar_white). rewrite <- E. apply rev_involutive.
Qed.
Lemma fold_mono (ds : list (bool * Z)) : Forall (fun x => 0 <= snd x < 16) ds -> forall acc, 0 <= acc -> acc <= fold_left (fun a x => a * 16 + snd x) ds acc.
Proof. induction 1 as [|d ds H F IH]; intros acc A; cbn [fold_left]; [lia|]. specialize (IH (acc * 16 + snd d)). lia. Qed.
Lemma uint_digits ds : Forall (fun x : bool * Z => 0 <= snd x < 16) ds -> forall acc, 0 <= acc -> fold_left (fun a x => a * 16 + snd x) ds acc < 2 ^ 31 ->
  uint_loop acc (map (fun x => digit_char (fst x) (snd x)) ds) = fold_left (fun a x => a * 16 + snd x) ds acc.
Proof.
  induction 1 as [|d ds H F IH]; intros acc A L; cbn [map uint_loop fold_left] in *; auto. rewrite digit_val by assumption.
  pose proof (fold_mono ds F (acc * 16 + snd d)). destruct (Z.leb_spec (2 ^ 60) acc); [lia|]. apply IH; lia.
Qed.
Lemma numeral_uint h v : numeral h v -> v < 2 ^ 31 -> to_rune (parse_uint h) = v.
Proof.
  intros (ds & NE & F & -> & ->) L. unfold parse_uint. rewrite uint_digits by (auto; lia). unfold to_rune.
  pose proof (fold_mono ds F 0). rewrite Z.mod_small by lia. destruct (Z.ltb_spec (fold_left (fun a x => a * 16 + snd x) ds 0) (2 ^ 31)); lia.
Qed.

Lemma bg_items : forall its ps prs, Forall2 denotes its ps -> bracket_pairs (map snd its) prs -> bg_collect ps = Ok prs.
Proof.
  induction its as [|x its IH]; intros ps prs D B; inversion D as [|x' y its' ps' DX DR]; subst; cbn [map] in B.
  - inversion B. reflexivity.
  - cbn [bg_collect]. rewrite Field_ok by lia. cbn [rbind]. replace (Z.to_nat (2 - 1)) with 1%nat by lia. rewrite (denotes_field x y 1 DX).
    rewrite list_eqb_dec. inversion B as [|it its0 p prs0 BL OP BR|it its0 prs0 NO BR]; subst.
    + destruct (list_eq_dec _ _ _) as [_|N]; [|unfold opening in OP; congruence]. cbn [negb]. rewrite Field_ok by lia. cbn [rbind].
      rewrite (IH ps' prs0 DR BR). cbn [rbind]. replace (Z.to_nat (1 - 1)) with 0%nat by lia.
      destruct BL as (g1 & h & g2 & rest & G1 & G2 & NUM & LT & FS). unfold readHexRune. rewrite (denotes_field x y 0 DX), FS. cbn [nth].
      rewrite (strip_numeral g1 h g2 p) by assumption. rewrite (numeral_uint h p NUM LT).
      destruct x as [ln it]. destruct DX as (_ & _ & _ & _ & R & _). unfold Range in R. cbn [snd] in *. now injection R as -> _.
    + destruct (list_eq_dec _ _ _) as [E|_]; [unfold opening in NO; congruence|]. cbn [negb]. now apply IH.
Qed.
Lemma readBrackets_ok isNd n file sizes ls its prs : short_lines file -> lines_of file ls -> contents 1 ls its -> (length file + 3 <= n)%nat ->
  bracket_pairs (map snd its) prs -> readBrackets isNd n (NewScanner file sizes EOF) = Ok prs.
Proof.
  intros SH L C N B. destruct (parse_items isNd n file sizes ls its SH L C N) as (ps & E & P). unfold readBrackets. rewrite E. cbn [rbind].
  destruct its as [|x its].
  - subst ps. inversion B. reflexivity.
  - destruct P as (doc & ps' & -> & _ & FD & _ & D). cbn [bg_collect]. rewrite Field_ok by lia. rewrite FD. cbn [rbind].
    replace (Z.to_nat (2 - 1)) with 1%nat by lia. cbn [nth]. rewrite TrimSpace_nil. change (negb (list_eqb [] [111])) with true. cbn iota. now apply (bg_items (x :: its)).
Qed.

(* ---- break tests ---- *)
Definition word_ok (w : list Z) : Prop := w <> [] /\ (Forall hexchar w \/ w = break_sign \/ w = nobreak_sign).
Lemma seg_words_ok s ws : seg_words s ws -> Forall word_ok ws.
Proof.
  induction 1 as [c h NUM|c h cs ws NUM SW IH]; destruct (numeral_chars _ _ NUM) as [NE HC].
  - constructor; [split; auto|constructor].
  - constructor; [split; auto|]. constructor; [split; [discriminate|auto]|assumption].
Qed.
Lemma test_words_ok segs ws : test_words segs ws -> Forall word_ok ws.
Proof.
  induction 1 as [|s ws segs ts SW TW IH].
  - constructor; [split; [discriminate|auto]|constructor].
  - constructor; [split; [discriminate|auto]|]. apply Forall_app. split; auto. now apply seg_words_ok in SW.
Qed.

(* reading a word *)
Lemma hex_not_space c : hexchar c -> IsSpace c = false.
Proof.
  intros H. rewrite space_white by (unfold hexchar, ascii in *; lia). now apply hexchar_white.
Qed.
Lemma words_hex w : Forall hexchar w -> forall n acc s, (length (w ++ s) <= n)%nat -> exists n', words_loop n (w ++ s) acc = words_loop n' s (acc ++ w) /\ (length s <= n')%nat.
Proof.
  induction 1 as [|c w H F IH]; intros n acc s L.
  - exists n. now rewrite app_nil_r.
  - destruct n; [cbn in L; lia|]. cbn [app words_loop]. rewrite decode_ascii by (unfold hexchar, ascii in *; lia). rewrite hex_not_space by assumption.
    change (Z.to_nat 1) with 1%nat. cbn [skipn firstn]. destruct (IH n (acc ++ [c]) s) as (n' & -> & L'); [cbn in L; lia|]. exists n'. now rewrite <- app_assoc.
Qed.
Lemma words_sign w : w = break_sign \/ w = nobreak_sign -> forall n acc s, (length (w ++ s) <= n)%nat -> exists n', words_loop n (w ++ s) acc = words_loop n' s (acc ++ w) /\ (length s <= n')%nat.
Proof.
  intros [-> | ->] [|n] acc s L; try (cbn in L; lia); exists n; (split; [|cbn in L; lia]); reflexivity.
Qed.
Lemma words_word w : word_ok w -> forall n acc s, (length (w ++ s) <= n)%nat -> exists n', words_loop n (w ++ s) acc = words_loop n' s (acc ++ w) /\ (length s <= n')%nat.
Proof. intros [_ [H|H]]; [now apply words_hex|now apply words_sign]. Qed.
Lemma words_blank n b s : blank b -> forall acc, (length (b :: s) <= n)%nat -> exists n', words_loop n (b :: s) acc = (match acc with [] => [] | _ => [acc] end) ++ words_loop n' s [] /\ (length s <= n')%nat.
Proof. intros [-> | ->] acc L; (destruct n; [cbn in L; lia|]); exists n; (split; [reflexivity|cbn in L; lia]). Qed.
Lemma words_gap g : Forall blank g -> forall n s, (length (g ++ s) <= n)%nat -> exists n', words_loop n (g ++ s) [] = words_loop n' s [] /\ (length s <= n')%nat.
Proof.
  induction 1 as [|b g B G IH]; intros n s L; [now exists n|]. cbn [app]. destruct (words_blank n b (g ++ s) B [] L) as (n1 & -> & L1). cbn [app].
  apply IH. exact L1.
Qed.
Lemma words_end n acc : words_loop n [] acc = match acc with [] => [] | _ => [acc] end.
Proof. now destruct n. Qed.
Lemma ScanWords_ok ws t : spaced ws t -> Forall word_ok ws -> ScanWords t = ws.
Proof.
  intros S W. unfold ScanWords. assert (L : (length t <= length t)%nat) by lia. revert L. generalize (length t) at 2 3. 
  induction S as [g G|g w G|g w b ws t G B S IH]; intros n L.
  - destruct (words_gap g G n [] ) as (n' & E & _); [now rewrite app_nil_r|]. rewrite app_nil_r in E. rewrite E. apply words_end.
  - inversion W as [|w' r OK _]; subst. destruct (words_gap g G n w L) as (n1 & -> & L1). rewrite <- (app_nil_r w) in L1 |- * at 1.
    destruct (words_word w OK n1 [] [] L1) as (n2 & -> & _). rewrite words_end. cbn [app]. destruct OK as [NE _]. now destruct w.
  - inversion W as [|w' r OK WR]; subst. destruct (words_gap g G n _ L) as (n1 & -> & L1).
    destruct (words_word w OK n1 [] _ L1) as (n2 & -> & L2). cbn [app]. destruct (words_blank n2 b t B w L2) as (n3 & -> & L3).
    rewrite (IH WR n3 L3). destruct OK as [NE _]. now destruct w.
Qed.

Definition enc (s : list Z) : list Z := concat (map EncodeRune s).
Lemma enc_nonempty c s : enc (c :: s) <> [].
Proof.
  unfold enc. cbn. intros E. apply app_eq_nil in E. destruct E as [E _]. unfold EncodeRune in E.
  repeat match type of E with context [if ?a then _ else _] => destruct a end; discriminate.
Qed.
Lemma hex_no_sign w : Forall hexchar w -> list_eqb w divsign = false /\ list_eqb w mulsign = false.
Proof.
  intros H. split; rewrite list_eqb_dec; destruct (list_eq_dec _ _ _) as [E|]; auto; rewrite E in H; inversion H; unfold hexchar in *; lia.
Qed.
Lemma seg_loop s ws : seg_words s ws -> Forall (fun c => c < 2 ^ 31) s -> forall rest inp run out,
  test_loop (ws ++ rest) inp run out = test_loop rest (inp ++ enc s) (run ++ enc s) out.
Proof.
  induction 1 as [c h NUM|c h cs ws NUM SW IH]; intros LT rest inp run out; inversion LT; subst; destruct (numeral_chars _ _ NUM) as [NE HC]; destruct (hex_no_sign _ HC) as [N1 N2];
    cbn [app test_loop]; rewrite N1, N2, (numeral_uint h c NUM) by assumption.
  - unfold enc. cbn. now rewrite app_nil_r.
  - cbn [test_loop]. change (list_eqb nobreak_sign divsign) with false. change (list_eqb nobreak_sign mulsign) with true. cbn iota.
    rewrite IH by assumption. unfold enc. cbn [map concat]. now rewrite !app_assoc.
Qed.
Lemma test_loop_ok segs ws : test_words segs ws -> Forall (Forall (fun c => c < 2 ^ 31)) segs -> forall inp run out,
  test_loop ws inp run out = (inp ++ enc (concat segs), out ++ (match run with [] => [] | _ => [run] end) ++ map enc segs).
Proof.
  induction 1 as [|s ws segs ts SW TW IH]; intros LT inp run out.
  - cbn [test_loop]. change (list_eqb break_sign divsign) with true. cbn iota. unfold enc. cbn [concat map]. rewrite !app_nil_r.
    destruct run; cbn; [now rewrite app_nil_r|reflexivity].
  - inversion LT; subst. cbn [app test_loop]. change (list_eqb break_sign divsign) with true. cbn iota.
    assert (SN : exists c s', s = c :: s') by (inversion SW; eauto). destruct SN as (c & s' & SE). 
    assert (GO : forall o, test_loop (ws ++ ts) inp [] o = (inp ++ enc (concat (s :: segs)), o ++ map enc (s :: segs))).
    { intros o. rewrite (seg_loop _ _ SW) by assumption. rewrite IH by assumption. cbn [app concat map]. f_equal.
      - rewrite <- app_assoc. f_equal. unfold enc. now rewrite map_app, concat_app.
      - f_equal. pose proof (enc_nonempty c s') as NE. rewrite <- SE in NE. now destruct (enc s). }
    destruct run as [|r0 run].
    + change (0 <? zlen []) with false. cbn iota. rewrite GO. reflexivity.
    + assert (P : (0 <? zlen (r0 :: run)) = true) by (unfold zlen; cbn [length]; apply Z.ltb_lt; lia). rewrite P, GO. now rewrite <- app_assoc.
Qed.
Lemma BreakTestInput_ok segs ws ti : test_words segs ws -> spaced ws ti -> Forall (Forall (fun c => c < 2 ^ 31)) segs ->
  BreakTestInput ti = (enc (concat segs), map enc segs).
Proof. intros T S LT. unfold BreakTestInput. rewrite (ScanWords_ok ws ti S (test_words_ok _ _ T)). now rewrite (test_loop_ok _ _ T LT). Qed.

(* ---- test files ---- *)
Lemma split_hash s : match before_hash s with (x, None) => Split 35 s = [x] | (x, Some y) => Split 35 s = x :: Split 35 y end.
Proof.
  induction s as [|b t IH]; cbn; auto. destruct (b =? 35) eqn:E; auto. destruct (before_hash t) as [x [y|]]; now rewrite IH.
Qed.
(* the lines of a test file, and what successive calls of Scan deliver *)
Fixpoint scans (n : nat) (tf : testfile) : list (bool * list Z * list Z) :=
  match n with
  | 0%nat => []
  | S n' => let '(ok, tf) := TfScan tf in (ok, tf_text tf, tf_comment tf) :: scans n' tf
  end.
Definition is_comment (l : list Z) : bool := match l with b :: _ => b =? 35 | [] => false end.
Definition test_line (l : list Z) : list Z * list Z :=
  let '(x, y) := before_hash (TrimSpace l) in (x, match y with Some y => fst (before_hash y) | None => [] end).
Definition has_comment (l : list Z) : Prop := exists y, snd (before_hash (TrimSpace l)) = Some y.
Lemma tf_scan_ok lines text comment : (forall l, In l lines -> l <> []) ->
  match filter (fun l => negb (is_comment l)) lines with
  | [] => tf_scan lines text comment = (false, mktf [] text comment)
  | l :: rest => exists lines', fst (tf_scan lines text comment) = true /\ tf_lines (snd (tf_scan lines text comment)) = lines' /\
      filter (fun l => negb (is_comment l)) lines' = rest /\ (forall l, In l lines' -> l <> []) /\
      tf_text (snd (tf_scan lines text comment)) = fst (test_line l) /\ (has_comment l -> tf_comment (snd (tf_scan lines text comment)) = snd (test_line l))
  end.
Proof.
  induction lines as [|l lines IH]; intros NE; [reflexivity|]. cbn [filter tf_scan]. destruct l as [|b l]; [exfalso; apply (NE []); [now left|reflexivity]|].
  cbn [is_comment]. destruct (b =? 35) eqn:E; cbn [negb]; [apply IH; intros; apply NE; now right|].
  exists lines. assert (NE' : forall x, In x lines -> x <> []) by (intros; apply NE; now right).
  unfold test_line, has_comment. pose proof (split_hash (TrimSpace (b :: l))) as SH. destruct (before_hash (TrimSpace (b :: l))) as [x [y|]].
  - rewrite SH. pose proof (split_hash y) as SY. destruct (before_hash y) as [u [v|]]; rewrite SY; cbn; repeat split; auto.
  - rewrite SH. cbn. repeat split; auto. intros [y Y]. discriminate.
Qed.
Lemma scans_ok : forall n lines text comment, (forall l, In l lines -> l <> []) -> (forall l, In l lines -> is_comment l = false -> has_comment l) ->
  n = length (filter (fun l => negb (is_comment l)) lines) ->
  exists t c, scans (S n) (mktf lines text comment) = map (fun l => (true, fst (test_line l), snd (test_line l))) (filter (fun l => negb (is_comment l)) lines) ++ [(false, t, c)].
Proof.
  induction n as [|n IH]; intros lines text comment NE HC LEN; pose proof (tf_scan_ok lines text comment NE) as T; cbn [scans]; unfold TfScan; cbn [tf_lines tf_text tf_comment].
  - destruct (filter _ lines); [|discriminate]. rewrite T. cbn. eauto.
  - destruct (filter (fun l => negb (is_comment l)) lines) as [|l rest] eqn:FL; [discriminate|].
    assert (IL : In l lines /\ is_comment l = false). { assert (I : In l (l :: rest)) by now left. rewrite <- FL in I. apply filter_In in I. destruct I as [I1 I2]. split; auto. now apply negb_true_iff in I2. }
    destruct T as (lines' & OK & TL & FL' & NE' & TT & TC). specialize (TC (HC l (proj1 IL) (proj2 IL))).
    destruct (tf_scan lines text comment) as [ok tf] eqn:SC. cbn [fst snd] in *. subst ok. destruct tf as [tl tt tc]. cbn [tf_lines tf_text tf_comment] in *. subst tl tt tc.
    assert (HC' : forall x, In x lines' -> is_comment x = false -> has_comment x).
    { intros x I C. apply HC; auto. assert (IR : In x rest) by (rewrite <- FL'; apply filter_In; split; auto; now rewrite C).
      assert (I2 : In x (l :: rest)) by now right. rewrite <- FL in I2. now apply filter_In in I2. }
    destruct (IH lines' (fst (test_line l)) (snd (test_line l)) NE' HC') as (t & c & E); [cbn in LEN; rewrite FL'; lia|].
    exists t, c. cbn [scans] in E. rewrite FL' in E. cbn [map app]. f_equal. exact E.
Qed.

(* field position 1 *)
Lemma contents_ok n ls its : contents n ls its -> Forall (fun x => item_ok (snd x)) its.
Proof. induction 1; auto. Qed.
Lemma tablegen_field_1 isNd n prefix file sizes ls its : short_lines file -> lines_of file ls -> contents 1 ls its -> (length file + 3 <= n)%nat -> its <> [] ->
  tablegen isNd n prefix 1 (NewScanner file sizes EOF) = Panic.
Proof.
  intros SH L C N NE. destruct (parse_items isNd n file sizes ls its SH L C N) as (ps & E & P). unfold tablegen. rewrite E. cbn [rbind].
  destruct its as [|x its]; [congruence|]. destruct P as (doc & ps' & -> & _ & FD & _ & D). inversion D as [|x' t its' ps2 DX DR]; subst.
  apply contents_ok in C. inversion C as [|? ? OK _]; subst. change (1 - 1) with 0.
  cbn [tg_collect]. unfold tg_callback at 1. destruct (Range doc). unfold Field at 1. rewrite FD. change (0 <? zlen (@nil (list Z))) with false. cbn [andb rbind].
  rewrite TrimSpace_nil. cbn [rbind]. unfold tg_callback at 1. destruct (Range t). unfold Field.
  destruct x as [ln it]. destruct DX as (_ & _ & _ & _ & _ & F & _). cbn [snd] in OK. destruct OK as (_ & _ & FN & _).
  assert (LN : 0 < zlen (Fields t)). { apply (f_equal (@length (list Z))) in F. rewrite !map_length in F. unfold zlen. rewrite F. destruct (it_fields it); [congruence|cbn; lia]. }
  destruct (Z.ltb_spec 0 (zlen (Fields t))); [|lia]. destruct (Z.leb_spec 0 (zlen (Fields t))); [|lia]. reflexivity.
Qed.
