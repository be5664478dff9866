(* Utf8Proofs.v -- decoding inverts encoding; behaviour of PositionOfFirstLegalRune. *)
From Coq Require Import List ZArith Lia Bool ZifyBool.
From Verif Require Import Base RuneWrite Segmenter Utf8.
Import ListNotations.
Open Scope Z_scope.
Ltac Zify.zify_post_hook ::= Z.div_mod_to_equations.

Definition byte (b : Z) : Prop := 0 <= b < 256.

Lemma between_true lo hi b : between lo hi b = true <-> lo <= b <= hi.
Proof. unfold between. lia. Qed.
Lemma between_false lo hi b : between lo hi b = false <-> b < lo \/ hi < b.
Proof. unfold between. lia. Qed.

Lemma scalar_spec r : scalar r = true <-> 0 <= r <= 55295 \/ 57344 <= r <= 1114111.
Proof. unfold scalar, between. lia. Qed.

Lemma if_true {A} (b : bool) (x y : A) : b = true -> (if b then x else y) = x.
Proof. intros ->. reflexivity. Qed.
Lemma if_false {A} (b : bool) (x y : A) : b = false -> (if b then x else y) = y.
Proof. intros ->. reflexivity. Qed.

Lemma second_spec b0 : second b0 = (if b0 =? 224 then 160 else if b0 =? 240 then 144 else 128, if b0 =? 237 then 159 else if b0 =? 244 then 143 else 191).
Proof. unfold second. destruct (Z.eqb_spec b0 224), (Z.eqb_spec b0 237), (Z.eqb_spec b0 240), (Z.eqb_spec b0 244); try lia; reflexivity. Qed.

Lemma decode_encode r t : scalar r = true -> DecodeRune (EncodeRune r ++ t) = (r, zlen (EncodeRune r)).
Proof.
  intros H. unfold EncodeRune. rewrite H. apply scalar_spec in H.
  destruct (Z.ltb_spec r 128) as [H1|H1].
  { cbn [app DecodeRune]. rewrite if_true by lia. reflexivity. }
  destruct (Z.ltb_spec r 2048) as [H2|H2].
  { cbn [app]. unfold DecodeRune. rewrite if_false by lia. rewrite second_spec. rewrite if_true by (apply between_true; lia).
    rewrite if_true. { f_equal. lia. } apply between_true.
    destruct (Z.eqb_spec (192 + r / 64) 224), (Z.eqb_spec (192 + r / 64) 240), (Z.eqb_spec (192 + r / 64) 237), (Z.eqb_spec (192 + r / 64) 244); lia. }
  destruct (Z.ltb_spec r 65536) as [H3|H3].
  { cbn [app]. unfold DecodeRune. rewrite if_false by lia. rewrite second_spec. rewrite if_false by (apply between_false; lia).
    rewrite if_true by (apply between_true; lia). rewrite if_true. { f_equal. lia. }
    apply andb_true_intro. split; [|apply between_true; lia]. apply between_true.
    destruct (Z.eqb_spec (224 + r / 4096) 224), (Z.eqb_spec (224 + r / 4096) 240), (Z.eqb_spec (224 + r / 4096) 237), (Z.eqb_spec (224 + r / 4096) 244); lia. }
  cbn [app]. unfold DecodeRune. rewrite if_false by lia. rewrite second_spec. rewrite if_false by (apply between_false; lia).
  rewrite if_false by (apply between_false; lia). rewrite if_true by (apply between_true; lia). rewrite if_true. { f_equal. lia. }
  apply andb_true_intro. split; [|apply between_true; lia]. apply andb_true_intro. split; [|apply between_true; lia]. apply between_true.
  destruct (Z.eqb_spec (240 + r / 262144) 224), (Z.eqb_spec (240 + r / 262144) 240), (Z.eqb_spec (240 + r / 262144) 237), (Z.eqb_spec (240 + r / 262144) 244); lia.
Qed.

Lemma encode_len r : 1 <= zlen (EncodeRune r) <= 4.
Proof. unfold EncodeRune. destruct (_ <? 128); [cbn; lia|]. destruct (_ <? 2048); [cbn; lia|]. destruct (_ <? 65536); cbn; lia. Qed.

(* the decoder's verdict "ill-formed" *)
Definition bad (s : list Z) : Prop := fst (DecodeRune s) = RuneError /\ snd (DecodeRune s) <= 1.

Lemma decode_sound s : Forall byte s -> bad s \/
  (scalar (fst (DecodeRune s)) = true /\ snd (DecodeRune s) = zlen (EncodeRune (fst (DecodeRune s))) /\
   s = EncodeRune (fst (DecodeRune s)) ++ skipn (Z.to_nat (snd (DecodeRune s))) s).
Proof.
  intros B. unfold bad. destruct s as [|b0 t]; [left; cbn; lia|]. inversion B as [|? ? B0 B1]; subst. unfold byte in B0.
  unfold DecodeRune. destruct (Z.ltb_spec b0 128) as [L|L].
  { right. cbn [fst snd]. assert (S : scalar b0 = true) by (apply scalar_spec; lia). split; [exact S|].
    unfold EncodeRune. rewrite S, (if_true (b0 <? 128)) by lia. split; reflexivity. }
  rewrite second_spec.
  destruct (between 194 223 b0) eqn:E1.
  { destruct t as [|b1 t]; [left; cbn; lia|]. inversion B1 as [|? ? C1 C2]; subst.
    destruct (between _ _ b1) eqn:E2; [|left; cbn; lia]. right. cbn [fst snd].
    apply between_true in E1, E2.
    assert (R : 128 <= b1 <= 191) by (destruct (b0 =? 224), (b0 =? 240), (b0 =? 237), (b0 =? 244); lia). clear E2.
    set (r := (b0 - 192) * 64 + (b1 - 128)).
    assert (S : scalar r = true) by (apply scalar_spec; subst r; lia). split; [exact S|].
    unfold EncodeRune. rewrite S. subst r. rewrite if_false by lia. rewrite if_true by lia. split; [reflexivity|].
    change (Z.to_nat 2) with 2%nat. cbn [skipn app]. f_equal; [lia|f_equal; lia]. }
  destruct (between 224 239 b0) eqn:E2.
  { destruct t as [|b1 [|b2 t]]; [left; cbn; lia|left; cbn; lia|].
    destruct (between _ _ b1) eqn:E3; [|left; cbn; lia]. destruct (cont b2) eqn:E4; [|left; cbn; lia]. right. cbn [andb fst snd].
    unfold cont in E4. apply between_true in E2, E3, E4.
    assert (R : 128 <= b1 <= 191 /\ (b0 = 224 -> 160 <= b1) /\ (b0 = 237 -> b1 <= 159)).
    { destruct (Z.eqb_spec b0 224), (Z.eqb_spec b0 240), (Z.eqb_spec b0 237), (Z.eqb_spec b0 244); lia. } clear E3.
    set (r := (b0 - 224) * 4096 + (b1 - 128) * 64 + (b2 - 128)).
    assert (S : scalar r = true) by (apply scalar_spec; subst r; lia). split; [exact S|].
    unfold EncodeRune. rewrite S. subst r. rewrite if_false by lia. rewrite if_false by lia. rewrite if_true by lia. split; [reflexivity|].
    change (Z.to_nat 3) with 3%nat. cbn [skipn app]. f_equal; [lia|f_equal; [lia|f_equal; lia]]. }
  destruct (between 240 244 b0) eqn:E3.
  { destruct t as [|b1 [|b2 [|b3 t]]]; [left; cbn; lia|left; cbn; lia|left; cbn; lia|].
    destruct (between _ _ b1) eqn:E4; [|left; cbn; lia]. destruct (cont b2) eqn:E5; [|left; cbn; lia]. destruct (cont b3) eqn:E6; [|left; cbn; lia].
    right. cbn [andb fst snd]. unfold cont in E5, E6. apply between_true in E3, E4, E5, E6.
    assert (R : 128 <= b1 <= 191 /\ (b0 = 240 -> 144 <= b1) /\ (b0 = 244 -> b1 <= 143)).
    { destruct (Z.eqb_spec b0 224), (Z.eqb_spec b0 240), (Z.eqb_spec b0 237), (Z.eqb_spec b0 244); lia. } clear E4.
    set (r := (b0 - 240) * 262144 + (b1 - 128) * 4096 + (b2 - 128) * 64 + (b3 - 128)).
    assert (S : scalar r = true) by (apply scalar_spec; subst r; lia). split; [exact S|].
    unfold EncodeRune. rewrite S. subst r. rewrite if_false by lia. rewrite if_false by lia. rewrite if_false by lia. split; [reflexivity|].
    change (Z.to_nat 4) with 4%nat. cbn [skipn app]. f_equal; [lia|f_equal; [lia|f_equal; [lia|f_equal; lia]]]. }
  left. cbn. lia.
Qed.

Lemma encode_not_bad r t : scalar r = true -> ~ bad (EncodeRune r ++ t).
Proof.
  intros S [F N]. rewrite (decode_encode r t S) in F, N. cbn [fst snd] in *. subst r. vm_compute in N. apply N. reflexivity.
Qed.
Lemma legal_iff s : Forall byte s -> (legal_here s <-> ~ bad s).
Proof.
  intros B. split.
  - intros (r & t & S & ->). apply encode_not_bad, S.
  - intros N. destruct (decode_sound s B) as [H|(S & _ & E)]; [contradiction|]. eexists _, _. split; [exact S|exact E].
Qed.

(* ---- PositionOfFirstLegalRune ---- *)
Lemma slice_all {A} (s : list A) : zslice s 0 (zlen s) = Some s.
Proof.
  unfold zslice. pose proof (zlen_nonneg s). rewrite if_true by lia. rewrite Z.sub_0_r. unfold zlen. rewrite Nat2Z.id.
  cbn [Z.to_nat skipn]. now rewrite firstn_all.
Qed.
Lemma slice_none {A} (s : list A) : zslice s 0 0 = Some [].
Proof. unfold zslice. pose proof (zlen_nonneg s). rewrite if_true by lia. reflexivity. Qed.

Lemma position_cases n s : PositionOfFirstLegalRune (S n) s =
  match s with
  | [] => Ok (-1, [])
  | b :: _ => if RuneStart b then Ok (if fst (DecodeRune s) =? RuneError then (-1, []) else (0, [])) else PositionOfFirstLegalRune n s
  end.
Proof.
  unfold PositionOfFirstLegalRune. cbn [legal_loop]. destruct s as [|b t]; [reflexivity|].
  rewrite (if_true (0 <? zlen (b :: t))) by (rewrite zlen_cons; pose proof (zlen_nonneg t); lia).
  rewrite (zget_cons b t 0) by lia. cbn [Z.eqb lift rbind]. destruct (RuneStart b) eqn:R; [|reflexivity].
  rewrite slice_all. cbn [lift rbind]. destruct (fst (DecodeRune (b :: t)) =? RuneError); cbn [negb rbind]; rewrite slice_none; reflexivity.
Qed.

Lemma position_diverges b t : RuneStart b = false -> forall n, PositionOfFirstLegalRune n (b :: t) = NoFuel.
Proof. intros R. induction n as [|n IH]; [reflexivity|]. rewrite position_cases, R. exact IH. Qed.

Lemma decode_start b t : fst (DecodeRune (b :: t)) <> RuneError -> RuneStart b = true.
Proof.
  intros H. unfold RuneStart. destruct (cont b) eqn:C; [|reflexivity]. exfalso. apply H. unfold cont in C. apply between_true in C.
  unfold DecodeRune. rewrite if_false by lia. destruct (second b). rewrite if_false by (apply between_false; lia).
  rewrite if_false by (apply between_false; lia). rewrite if_false by (apply between_false; lia). reflexivity.
Qed.

Lemma position_good n s : fst (DecodeRune s) <> RuneError -> PositionOfFirstLegalRune (S n) s = Ok (0, []).
Proof.
  intros H. rewrite position_cases. destruct s as [|b t]; [contradiction H; reflexivity|].
  rewrite (decode_start b t H). destruct (Z.eqb_spec (fst (DecodeRune (b :: t))) RuneError); [contradiction|reflexivity].
Qed.
(* whatever it returns *)
Lemma position_returns n s a : PositionOfFirstLegalRune n s = Ok a -> a = (0, []) \/ a = (-1, []).
Proof.
  induction n as [|n IH]; [discriminate|]. rewrite position_cases. destruct s as [|b t]; [intros [= <-]; auto|].
  destruct (RuneStart b); [|exact IH]. destruct (_ =? _); intros [= <-]; auto.
Qed.
(* it is right if the first bytes are a legal rune other than U+FFFD, or if there is nothing legal and it returns *)
Lemma position_right n s r t : scalar r = true -> r <> RuneError -> s = EncodeRune r ++ t ->
  exists a, PositionOfFirstLegalRune (S n) s = Ok a /\ first_legal s a.
Proof.
  intros S N ->. exists (0, []). split.
  - apply position_good. rewrite decode_encode by exact S. exact N.
  - right. exists 0%nat. pose proof (encode_len r). split; [rewrite app_length; unfold zlen in *; lia|].
    split; [reflexivity|]. split; [exists r, t; auto|]. intros j Hj. lia.
Qed.
Lemma position_none n s a : Forall byte s -> (forall k, ~ legal_here (skipn k s)) -> PositionOfFirstLegalRune n s = Ok a -> first_legal s a.
Proof.
  intros B N H. left. split; [|exact N]. destruct (position_returns n s a H) as [-> | ->]; [|reflexivity]. exfalso.
  apply (N 0%nat). cbn [skipn]. apply legal_iff; [exact B|]. intros [F _].
  induction n as [|n IH]; [discriminate|]. rewrite position_cases in H. destruct s as [|b t]; [discriminate|].
  destruct (RuneStart b); [|apply IH; exact H]. rewrite F in H. cbn in H. discriminate.
Qed.
