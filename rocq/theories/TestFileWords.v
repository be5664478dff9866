(* TestFileWords.v -- the words of a break test and the code points they stand for, without the loops of the model. *)
From Coq Require Import List ZArith Lia Bool.
From Verif Require Import Base Utf8 Utf8Proofs LineBuf UcdParse UcdSpec UcdParseProofs UcdGenProofs TestFileExact.
Import ListNotations.
Open Scope Z_scope.

(* ---- Specification ---- *)
(* a text and its runes, each with its bytes (an illegal byte is one rune) *)
Inductive decodes : list Z -> list (Z * list Z) -> Prop :=
| dec_nil : decodes [] []
| dec_cons r b t cs : b <> [] -> DecodeRune (b ++ t) = (r, zlen b) -> decodes t cs -> decodes (b ++ t) ((r, b) :: cs).
(* the white space of Unicode *)
Definition spaces : list Z := [9; 10; 11; 12; 13; 32; 133; 160; 5760; 8192; 8193; 8194; 8195; 8196; 8197; 8198; 8199; 8200; 8201; 8202; 8232; 8233; 8239; 8287; 12288].
(* what is between the spaces *)
Fixpoint between_spaces (cs : list (Z * list Z)) : list (list Z) :=
  match cs with
  | [] => [[]]
  | (r, b) :: t => if existsb (Z.eqb r) spaces then [] :: between_spaces t else match between_spaces t with w :: ws => (b ++ w) :: ws | [] => [b] end
  end.
(* hexadecimal digits *)
Definition digit_value (b : Z) : option Z :=
  find (fun d => (b =? nth (Z.to_nat d) [48; 49; 50; 51; 52; 53; 54; 55; 56; 57; 97; 98; 99; 100; 101; 102] 0) || (b =? nth (Z.to_nat d) [48; 49; 50; 51; 52; 53; 54; 55; 56; 57; 65; 66; 67; 68; 69; 70] 0))
    [0; 1; 2; 3; 4; 5; 6; 7; 8; 9; 10; 11; 12; 13; 14; 15].
Fixpoint hex_prefix (s : list Z) : list Z := match s with [] => [] | b :: t => match digit_value b with Some d => d :: hex_prefix t | None => [] end end.
Fixpoint hex_number (ds : list Z) : Z := match ds with [] => 0 | d :: t => d * 16 ^ zlen t + hex_number t end.
(* the number of a word: too large a number is the largest, no number is 0 *)
Definition word_number (w : list Z) : Z :=
  let ds := hex_prefix w in if 2 ^ 64 <=? hex_number ds then 2 ^ 64 - 1 else if (length ds =? length w)%nat then hex_number ds else 0.

(* ---- words ---- *)
Lemma space_list r : IsSpace r = existsb (Z.eqb r) spaces.
Proof.
  destruct (existsb (Z.eqb r) spaces) eqn:E.
  - apply existsb_exists in E. destruct E as (x & I & X). apply Z.eqb_eq in X. subst x. cbn [In spaces] in I. repeat (destruct I as [<-|I]; [reflexivity|]). contradiction.
  - unfold IsSpace, between. cbn [existsb spaces] in E. repeat (apply orb_false_iff in E; let A := fresh in destruct E as [A E]; apply Z.eqb_neq in A). repeat rewrite orb_false_iff. repeat rewrite andb_false_iff. repeat rewrite Z.leb_gt. repeat rewrite Z.eqb_neq. lia.
Qed.
Lemma between_cons cs : exists w ws, between_spaces cs = w :: ws.
Proof. induction cs as [|[r b] t IH]; [eexists _, _; reflexivity|]. cbn [between_spaces]. destruct (existsb _ spaces); [eexists _, _; reflexivity|]. destruct IH as (w & ws & ->). eexists _, _. reflexivity. Qed.
Lemma words_exact s cs : decodes s cs -> forall n acc, (length s <= n)%nat ->
  words_loop n s acc = filter nonempty (match between_spaces cs with w :: ws => (acc ++ w) :: ws | [] => [] end).
Proof.
  induction 1 as [|r b t cs NE D R IH]; intros n acc L.
  - replace (words_loop n [] acc) with (match acc with [] => [] | _ => [acc] end) by (destruct n; reflexivity). cbn [between_spaces]. rewrite app_nil_r. cbn [filter]. destruct acc; reflexivity.
  - destruct b as [|x b]; [contradiction|]. destruct n as [|n]; [cbn in L; lia|]. cbn [words_loop]. change ((x :: b) ++ t) with (x :: (b ++ t)) in *. rewrite D. cbn [between_spaces]. rewrite space_list.
    assert (LT : (length t <= n)%nat) by (cbn [length] in L; rewrite app_length in L; lia).
    change (x :: (b ++ t)) with ((x :: b) ++ t). replace (Z.to_nat (zlen (x :: b))) with (length (x :: b)) by (unfold zlen; lia). rewrite skipn_app, skipn_all, Nat.sub_diag, firstn_app, firstn_all, Nat.sub_diag, firstn_O, app_nil_r. cbn [skipn app].
    destruct (existsb (Z.eqb r) spaces).
    + rewrite app_nil_r. rewrite (IH n [] LT). destruct (between_cons cs) as (w & ws & ->). cbn [app]. cbn [filter]. destruct acc; reflexivity.
    + rewrite (IH n _ LT). destruct (between_cons cs) as (w & ws & ->). now rewrite <- app_assoc.
Qed.
Lemma decodes_total : forall n s, (length s <= n)%nat -> exists cs, decodes s cs.
Proof.
  induction n as [|n IH]; intros s L; [destruct s; [exists []; constructor|cbn in L; lia]|]. destruct s as [|b t]; [exists []; constructor|].
  pose proof (decode_size (b :: t) ltac:(discriminate)) as K. set (k := snd (DecodeRune (b :: t))) in *. assert (D : DecodeRune (b :: t) = (fst (DecodeRune (b :: t)), k)) by (unfold k; destruct (DecodeRune (b :: t)); reflexivity). assert (LS : (length (skipn (Z.to_nat k) (b :: t)) <= n)%nat) by (rewrite skipn_length; cbn [length] in *; lia).
  destruct (IH _ LS) as (cs & R). exists ((fst (DecodeRune (b :: t)), firstn (Z.to_nat k) (b :: t)) :: cs). rewrite <- (firstn_skipn (Z.to_nat k) (b :: t)) at 1.
  constructor; [|rewrite firstn_skipn, D; cbn [fst]; f_equal; unfold zlen in *; rewrite firstn_length; lia|exact R].
  intros E. apply (f_equal (@length Z)) in E. rewrite firstn_length in E. cbn [length] in *. lia.
Qed.
Lemma decodes_unique s cs ds : decodes s cs -> decodes s ds -> cs = ds.
Proof.
  intros D. revert ds. induction D as [|r b t cs NE D R IH]; intros ds E.
  - inversion E; subst; [reflexivity|]. match goal with H : [] = _ |- _ => symmetry in H; apply app_eq_nil in H; destruct H; subst; cbn in *; congruence | H : _ = [] |- _ => apply app_eq_nil in H; destruct H; subst; cbn in *; congruence end.
  - inversion E as [H|r' b' t' cs' NE' D' R' H]; subst; [match goal with H : [] = _ |- _ => symmetry in H; apply app_eq_nil in H; destruct H; subst; cbn in *; congruence | H : _ = [] |- _ => apply app_eq_nil in H; destruct H; subst; cbn in *; congruence end|].
    rewrite H, D in D'. injection D' as <- L. assert (LB : length b = length b') by (unfold zlen in L; lia).
    assert (BB : b' = b /\ t' = t). { split; [apply (f_equal (firstn (length b))) in H; rewrite LB in H at 1|apply (f_equal (skipn (length b))) in H; rewrite LB in H at 1].
      - rewrite !firstn_app, !firstn_all, !Nat.sub_diag, !firstn_O, !app_nil_r in H. exact H.
      - rewrite !skipn_app, !skipn_all, !Nat.sub_diag in H. exact H. }
    destruct BB as [-> ->]. f_equal. apply IH, R'.
Qed.

(* ---- numbers ---- *)
Lemma digit_hexval b : hexval b = digit_value b.
Proof.
  destruct (Z.leb_spec 48 b) as [H1|H1]; [destruct (Z.leb_spec b 102) as [H2|H2]|].
  - assert (I : In b (map Z.of_nat (seq 48 55))) by (apply in_map_iff; exists (Z.to_nat b); split; [lia|apply in_seq; lia]). clear H1 H2. cbn [seq map] in I. repeat (destruct I as [<-|I]; [reflexivity|]). contradiction.
  - unfold hexval, between. destruct (Z.leb_spec b 57), (Z.leb_spec b 102), (Z.leb_spec b 70); try lia. rewrite !andb_false_r. unfold digit_value. destruct (find _ _) eqn:F; [|reflexivity]. apply find_some in F. destruct F as [I E].
    cbn [In] in I. repeat (destruct I as [<-|I]; [apply orb_true_iff in E; rewrite !Z.eqb_eq in E; vm_compute in E; lia|]). contradiction.
  - unfold hexval, between. destruct (Z.leb_spec 48 b), (Z.leb_spec 97 b), (Z.leb_spec 65 b); try lia. cbn [andb]. unfold digit_value. destruct (find _ _) eqn:F; [|reflexivity]. apply find_some in F. destruct F as [I E].
    cbn [In] in I. repeat (destruct I as [<-|I]; [apply orb_true_iff in E; rewrite !Z.eqb_eq in E; vm_compute in E; lia|]). contradiction.
Qed.
Lemma digit_range b d : digit_value b = Some d -> 0 <= d < 16.
Proof. unfold digit_value. intros F. apply find_some in F. destruct F as [I _]. cbn [In] in I. repeat (destruct I as [<-|I]; [lia|]). contradiction. Qed.
Lemma hex_number_pos w : 0 <= hex_number (hex_prefix w).
Proof.
  induction w as [|b t IH]; cbn [hex_prefix hex_number]; [lia|]. destruct (digit_value b) as [d|] eqn:E; [|cbn; lia]. cbn [hex_number]. apply digit_range in E.
  assert (0 <= 16 ^ zlen (hex_prefix t)) by (apply Z.pow_nonneg; lia). nia.
Qed.
Lemma uint_exact w : forall acc, 0 <= acc < 2 ^ 64 ->
  let ds := hex_prefix w in let v := acc * 16 ^ zlen ds + hex_number ds in
  uint_loop acc w = if 2 ^ 64 <=? v then 2 ^ 64 - 1 else if (length ds =? length w)%nat then v else 0.
Proof.
  cbv zeta. induction w as [|b t IH]; intros acc A.
  - cbn [hex_prefix hex_number length Nat.eqb uint_loop]. change (zlen []) with 0. rewrite Z.pow_0_r, Z.mul_1_r, Z.add_0_r. destruct (Z.leb_spec (2 ^ 64) acc); [lia|reflexivity].
  - cbn [hex_prefix uint_loop]. rewrite digit_hexval. destruct (digit_value b) as [d|] eqn:E.
    + pose proof (digit_range b d E) as DR. cbn [hex_number length Nat.eqb]. rewrite zlen_cons. pose proof (zlen_nonneg (hex_prefix t)). rewrite Z.pow_add_r by lia. change (16 ^ 1) with 16.
      assert (P : 1 <= 16 ^ zlen (hex_prefix t)) by (change 1 with (16 ^ 0); apply Z.pow_le_mono_r; lia). pose proof (hex_number_pos t) as HP.
      destruct (Z.leb_spec (2 ^ 60) acc) as [B|B].
      * change (2 ^ 60) with 1152921504606846976 in *. change (2 ^ 64) with 18446744073709551616 in *. rewrite (proj2 (Z.leb_le _ _)); [reflexivity|]. nia.
      * change (2 ^ 60) with 1152921504606846976 in *. change (2 ^ 64) with 18446744073709551616 in *. rewrite IH by lia. match goal with |- (if _ <=? ?x then _ else _) = (if _ <=? ?y then _ else _) => replace y with x by ring end. reflexivity.
    + cbn [hex_number length Nat.eqb]. change (zlen []) with 0. rewrite Z.pow_0_r, Z.mul_1_r, Z.add_0_r. destruct (Z.leb_spec (2 ^ 64) acc); [lia|reflexivity].
Qed.
Lemma number_exact w : parse_uint w = word_number w.
Proof. unfold parse_uint, word_number. rewrite uint_exact by (split; [lia|reflexivity]). cbv zeta. now rewrite Z.mul_0_l, Z.add_0_l. Qed.
(* a negative rune and one that is too large are spelled alike *)
Lemma rune_spelled k : EncodeRune (to_rune k) = EncodeRune (k mod 2 ^ 32).
Proof.
  unfold to_rune. destruct (Z.ltb_spec (k mod 2 ^ 32) (2 ^ 31)) as [H|H]; [reflexivity|]. pose proof (Z.mod_pos_bound k (2 ^ 32) ltac:(lia)) as B. unfold EncodeRune. change (2 ^ 31) with 2147483648 in *. change (2 ^ 32) with 4294967296 in *.
  assert (S1 : scalar (k mod 4294967296 - 4294967296) = false) by (unfold scalar, between; lia). assert (S2 : scalar (k mod 4294967296) = false) by (unfold scalar, between; lia). now rewrite S1, S2.
Qed.

(* ---- break tests ---- *)
(* the text of a word that is no sign *)
Definition word_text (w : list Z) : list Z := EncodeRune (word_number w mod 2 ^ 32).
Definition group_text (g : list (list Z)) : list Z := concat (map word_text (filter (fun w => negb (list_eqb w nobreak_sign)) g)).
Lemma spelled_text g : spelled g = group_text g.
Proof. unfold spelled, group_text. f_equal. apply map_ext. intros w. unfold word_text. now rewrite rune_spelled, number_exact. Qed.
Lemma break_words ti cs : decodes ti cs -> let gs := groups (filter nonempty (between_spaces cs)) in
  BreakTestInput ti = (concat (map group_text gs), filter nonempty (map group_text (removelast gs))).
Proof.
  intros D gs. rewrite break_exact. assert (W : ScanWords ti = filter nonempty (between_spaces cs)).
  { unfold ScanWords. rewrite (words_exact ti cs D) by lia. destruct (between_cons cs) as (w & ws & ->). reflexivity. }
  rewrite W. fold gs. now rewrite !(map_ext spelled group_text spelled_text).
Qed.
