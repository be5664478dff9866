(* GeneratorProofs.v -- what the generators of the class tables load, and what the text they write means. *)
From Coq Require Import String List ZArith Lia Bool Permutation.
From Verif Require Import Base LineBuf UcdSpec UcdParse UcdParseProofs UcdItemProofs UcdFileProofs UcdGenProofs Generator GoSource.
Import ListNotations.
Open Scope Z_scope.

Lemma eqb_list_spec a b : eqb_list a b = true <-> a = b.
Proof.
  revert b. induction a as [|x s IH]; intros [|y t]; cbn; try (split; congruence). rewrite andb_true_iff, Z.eqb_eq, IH.
  split; [intros [-> ->]; auto|intros E; injection E; auto].
Qed.
Lemma eqb_list_refl a : eqb_list a a = true. Proof. now apply eqb_list_spec. Qed.
Lemma eqb_list_same a b : eqb_list a b = list_eqb a b.
Proof. reflexivity. Qed.

(* ---- the lexer ---- *)
Lemma span_shorter p s : (length (snd (span p s)) <= length s)%nat.
Proof. induction s as [|b t IH]; cbn; auto. destruct (p b); cbn; auto. destruct (span p t); cbn in *. lia. Qed.
Lemma hex_shorter k : forall acc s v r, hex k acc s = Some (v, r) -> (length r <= length s)%nat.
Proof.
  induction k as [|k IH]; intros acc s v r; cbn [hex]. - intros E. injection E as _ <-. lia.
  - destruct s as [|b t]; [discriminate|]. destruct (hexdigit b); [|discriminate]. intros E. apply IH in E. cbn. lia.
Qed.
Lemma escape_shorter s v r : escape s = Some (v, r) -> (length r <= length s)%nat.
Proof.
  destruct s as [|b t]; [discriminate|]. unfold escape.
  repeat match goal with |- context [if ?c then Some (_, t) else _] => destruct c; [intros E; injection E as _ <-; cbn; lia|] end.
  destruct (b =? 120); [intros E; apply hex_shorter in E; cbn; lia|].
  destruct (b =? 117).
  { destruct (hex 4 0 t) as [[v' r']|] eqn:E; [|discriminate]. destruct (scalar v'); [|discriminate]. intros X. injection X as _ <-. apply hex_shorter in E. cbn. lia. }
  destruct (b =? 85); [|discriminate].
  destruct (hex 8 0 t) as [[v' r']|] eqn:E; [|discriminate]. destruct (scalar v'); [|discriminate]. intros X. injection X as _ <-. apply hex_shorter in E. cbn. lia.
Qed.
Lemma rune_shorter s v r : rune_literal s = Some (v, r) -> (length r < length s)%nat.
Proof.
  destruct s as [|b t]; [discriminate|]. unfold rune_literal.
  destruct (if b =? 92 then escape t else _) as [[v' [|q r']]|] eqn:E; try discriminate. destruct (q =? 39); [|discriminate].
  intros X. injection X as _ <-. cbn. destruct (b =? 92).
  - apply escape_shorter in E. cbn in E. lia.
  - destruct ((b =? 39) || (b =? 10) || (128 <=? b)); [discriminate|]. injection E as _ ->. cbn. lia.
Qed.
Lemma line_end_shorter s : (length (line_end s) <= length s)%nat.
Proof. induction s as [|b t IH]; cbn; auto. destruct (b =? 10); cbn; lia. Qed.
Lemma lex1_shorter last s ts l r : lex1 last s = Some (ts, l, r) -> (length r < length s)%nat.
Proof.
  destruct s as [|b t]; [discriminate|]. unfold lex1.
  destruct (b =? 10); [intros E; injection E as _ _ <-; cbn; lia|].
  destruct ((b =? 32) || (b =? 9) || (b =? 13)); [intros E; injection E as _ _ <-; cbn; lia|].
  destruct (letter b).
  { pose proof (span_shorter (fun c => letter c || digit c) t) as S. destruct (span _ t). intros E. injection E as _ _ <-. cbn in *. lia. }
  destruct (digit b).
  { pose proof (span_shorter digit t) as S. destruct (span _ t). intros E. injection E as _ _ <-. cbn in *. lia. }
  destruct (b =? 39).
  { destruct (rune_literal t) as [[c r']|] eqn:R; [|discriminate]. intros E. injection E as _ _ <-. apply rune_shorter in R. cbn. lia. }
  destruct ((b =? 47) && _); [intros E; injection E as _ _ <-; pose proof (line_end_shorter t); cbn; lia|].
  destruct ((b =? 41) || (b =? 93) || (b =? 125)); [intros E; injection E as _ _ <-; cbn; lia|].
  destruct (existsb _ _); [intros E; injection E as _ _ <-; cbn; lia|discriminate].
Qed.
Lemma lexn_fuel n : forall m last s, (length s <= n)%nat -> (length s <= m)%nat -> lexn n last s = lexn m last s.
Proof.
  induction n as [|n IH]; intros [|m] last [|b t] N M; cbn in N, M; try lia; try reflexivity.
  cbn [lexn]. destruct (lex1 last (b :: t)) as [[[ts l] r]|] eqn:E; [|reflexivity]. apply lex1_shorter in E. cbn in E.
  now rewrite (IH m l r) by lia.
Qed.
Lemma tokens_step last s ts l r : lex1 last s = Some (ts, l, r) -> tokens last s = option_map (app ts) (tokens l r).
Proof.
  intros E. pose proof (lex1_shorter _ _ _ _ _ E) as S. unfold tokens. destruct s as [|b t]; [discriminate|]. cbn [length lexn]. rewrite E.
  cbn in S. now rewrite (lexn_fuel (length t) (length r) l r) by lia.
Qed.
Lemma tokens_fail last s : s <> [] -> lex1 last s = None -> tokens last s = None.
Proof. destruct s as [|b t]; [congruence|]. intros _ E. unfold tokens. cbn [length lexn]. now rewrite E. Qed.
Lemma map_app2 (a b : list tok) x : option_map (app a) (option_map (app b) x) = option_map (app (a ++ b)) x.
Proof. destruct x; cbn; auto. now rewrite app_assoc. Qed.
Lemma map_app0 x : option_map (app (@nil tok)) x = x.
Proof. now destruct x. Qed.

(* A text that gives the tokens [ts] whatever comes next. *)
Definition eats (last : bool) (s : list Z) (ts : list tok) (last' : bool) : Prop :=
  forall rest, tokens last (s ++ rest) = option_map (app ts) (tokens last' rest).
Lemma eats_app last s ts m t us last' : eats last s ts m -> eats m t us last' -> eats last (s ++ t) (ts ++ us) last'.
Proof. intros A B rest. rewrite <- app_assoc, A, B. apply map_app2. Qed.
Lemma eats_nil last : eats last [] [] last.
Proof. intros rest. now rewrite map_app0. Qed.
Lemma eats_one last b ts last' : (forall rest, lex1 last (b :: rest) = Some (ts, last', rest)) -> eats last [b] ts last'.
Proof. intros H rest. cbn [app]. now apply tokens_step. Qed.
Lemma eats_blank last g : Forall blank g -> eats last g [] last.
Proof.
  induction 1 as [|b g B F IH]; [apply eats_nil|]. change (b :: g) with ([b] ++ g). change (@nil tok) with (@nil tok ++ []).
  eapply eats_app; [|exact IH]. apply eats_one. intros rest. destruct B as [-> | ->]; reflexivity.
Qed.
Lemma eats_newline last : eats last [10] (if last then [Semi] else []) false.
Proof. now apply eats_one. Qed.
(* identifiers *)
Definition alnum (s : list Z) : Prop := forallb (fun c => letter c || digit c) s = true.
Definition ident (s : list Z) : Prop := match s with b :: t => letter b = true /\ alnum t | [] => False end.
Lemma span_all p s c rest : forallb p s = true -> p c = false -> span p (s ++ c :: rest) = (s, c :: rest).
Proof.
  intros A C. induction s as [|b t IH]; cbn in *. - now rewrite C.
  - apply andb_true_iff in A. destruct A as [-> A]. now rewrite IH.
Qed.
Lemma letter_other b : letter b = true -> (b =? 10) = false /\ ((b =? 32) || (b =? 9) || (b =? 13)) = false.
Proof.
  intros L. split.
  - destruct (Z.eqb_spec b 10) as [->|]; [discriminate|auto].
  - destruct (Z.eqb_spec b 32) as [->|]; [discriminate|]. destruct (Z.eqb_spec b 9) as [->|]; [discriminate|]. destruct (Z.eqb_spec b 13) as [->|]; [discriminate|auto].
Qed.
Lemma eats_ident last s c ts last' : ident s -> letter c || digit c = false ->
  (forall rest, lex1 true (c :: rest) = Some (ts, last', rest)) -> eats last (s ++ [c]) (Id s :: ts) last'.
Proof.
  intros I C H rest. destruct s as [|b t]; [contradiction|]. destruct I as [L A]. cbn [app]. rewrite <- app_assoc. cbn [app].
  erewrite tokens_step.
  2:{ unfold lex1. destruct (letter_other _ L) as [-> ->]. rewrite L, (span_all _ t c rest) by assumption. reflexivity. }
  rewrite (tokens_step true _ _ _ _ (H rest)), map_app2. reflexivity.
Qed.
Lemma alnum_app a b : alnum a -> alnum b -> alnum (a ++ b).
Proof. unfold alnum. intros A B. now rewrite forallb_app, A, B. Qed.
Lemma ident_alnum s : ident s -> alnum s.
Proof. destruct s as [|b t]; [contradiction|]. unfold ident, alnum. cbn. intros [-> ->]. reflexivity. Qed.
Lemma ident_app a b : ident a -> alnum b -> ident (a ++ b).
Proof. destruct a as [|x t]; [contradiction|]. cbn. intros [L A] B. split; auto. now apply alnum_app. Qed.
(* comments *)
Lemma line_end_app s rest : ~ In 10 s -> line_end (s ++ 10 :: rest) = 10 :: rest.
Proof.
  induction s as [|b t IH]; intros N; cbn; auto. destruct (Z.eqb_spec b 10) as [->|]; [exfalso; apply N; now left|]. apply IH. intro. apply N. now right.
Qed.
Lemma eats_comment last s : ~ In 10 s -> eats last ([47; 47] ++ s ++ [10]) (if last then [Semi] else []) false.
Proof.
  intros N rest. rewrite <- !app_assoc. erewrite tokens_step.
  2:{ cbn [app]. unfold lex1. replace (47 =? 10) with false by reflexivity. cbn [orb]. cbn. rewrite (line_end_app s rest N). reflexivity. }
  rewrite map_app0. apply eats_newline.
Qed.

(* ---- runes ---- *)
(* surrogates and numbers that are not code points are printed as U+FFFD *)
Definition fixed (r : Z) : Z := if valid_rune r then r else 65533.
Lemma fixed_valid r : valid_rune (fixed r) = true.
Proof. unfold fixed. destruct (valid_rune r) eqn:E; auto. Qed.
Lemma valid_iff r : valid_rune r = true <-> 0 <= r < 55296 \/ 57344 <= r <= 1114111.
Proof.
  unfold valid_rune. destruct (Z.leb_spec 0 r), (Z.ltb_spec r 55296), (Z.ltb_spec 57343 r), (Z.leb_spec r 1114111); cbn; split; intros; try lia; auto; discriminate.
Qed.
Lemma scalar_iff r : scalar r = true <-> 0 <= r < 55296 \/ 57344 <= r <= 1114111.
Proof.
  unfold scalar. destruct (Z.leb_spec 0 r), (Z.leb_spec r 1114111), (Z.leb_spec 55296 r), (Z.leb_spec r 57343); cbn; split; intros; try lia; auto; discriminate.
Qed.
Lemma hexdigit_lower d : 0 <= d < 16 -> hexdigit (lowerhex d) = Some d.
Proof.
  intros D. unfold lowerhex, hexdigit, digit. destruct (Z.ltb_spec d 10).
  - destruct (Z.leb_spec 48 (48 + d)), (Z.leb_spec (48 + d) 57); try lia. cbn [andb]. f_equal. lia.
  - destruct (Z.leb_spec 48 (87 + d)), (Z.leb_spec (87 + d) 57); try lia. cbn [andb].
    destruct (Z.leb_spec 65 (87 + d)), (Z.leb_spec (87 + d) 70); try lia. cbn [andb].
    destruct (Z.leb_spec 97 (87 + d)), (Z.leb_spec (87 + d) 102); try lia. cbn [andb]. f_equal. lia.
Qed.
Lemma hex_add k j : forall acc s, hex (k + j) acc s = match hex k acc s with Some (v, r) => hex j v r | None => None end.
Proof.
  induction k as [|k IH]; intros acc s; cbn [Nat.add hex]; auto. destruct s as [|b t]; auto. destruct (hexdigit b); auto.
Qed.
Lemma hex_digits k : forall v acc rest, 0 <= v -> hex k acc (hexdigits k v ++ rest) = Some (acc * 16 ^ Z.of_nat k + v mod 16 ^ Z.of_nat k, rest).
Proof.
  induction k as [|k IH]; intros v acc rest V.
  - cbn. rewrite Z.mod_1_r. f_equal. apply f_equal2; [lia|reflexivity].
  - cbn [hexdigits]. rewrite <- app_assoc. replace (S k) with (k + 1)%nat by lia. rewrite hex_add, IH by (apply Z.div_pos; lia).
    cbn [app hex]. rewrite hexdigit_lower by (apply Z.mod_pos_bound; lia). f_equal. apply f_equal2; [|reflexivity].
    replace (Z.of_nat (k + 1)) with (Z.of_nat k + 1) by lia. rewrite Z.pow_add_r by lia. change (16 ^ 1) with 16.
    rewrite (Z.mul_comm (16 ^ Z.of_nat k) 16). rewrite (Z.rem_mul_r v 16 (16 ^ Z.of_nat k)) by (try lia; apply Z.pow_pos_nonneg; lia). lia.
Qed.
Lemma eats_quoted last r : eats last (quote_rune r) [Rune (fixed r)] true.
Proof.
  intros rest. unfold quote_rune. fold (fixed r). pose proof (fixed_valid r) as V. generalize dependent (fixed r). intros c V.
  rewrite valid_iff in V. rewrite <- !app_assoc. cbn [app]. refine (tokens_step last _ [Rune c] true rest _).
  unfold lex1. change (39 =? 10) with false. change ((39 =? 32) || (39 =? 9) || (39 =? 13)) with false. change (letter 39) with false. change (digit 39) with false.
  change (39 =? 39) with true. cbn iota.
  assert (R : rune_literal ((if (c =? 39) || (c =? 92) then [92; c] else if (32 <=? c) && (c <? 127) then [c] else if c =? 7 then [92; 97] else if c =? 8 then [92; 98]
     else if c =? 12 then [92; 102] else if c =? 10 then [92; 110] else if c =? 13 then [92; 114] else if c =? 9 then [92; 116] else if c =? 11 then [92; 118]
     else if c <? 32 then 92 :: 120 :: hexdigits 2 c else if c <? 65536 then 92 :: 117 :: hexdigits 4 c else 92 :: 85 :: hexdigits 8 c) ++ 39 :: rest) = Some (c, rest)).
  2:{ now rewrite R. }
  destruct (Z.eqb_spec c 39) as [E39|N39]; [rewrite E39; reflexivity|]. destruct (Z.eqb_spec c 92) as [E92|N92]; [rewrite E92; reflexivity|]. cbn [orb].
  destruct (Z.leb_spec 32 c); [destruct (Z.ltb_spec c 127)|]; cbn [andb].
  { cbn [app]. unfold rune_literal. destruct (Z.eqb_spec c 92); [lia|]. destruct (Z.eqb_spec c 39); [lia|]. destruct (Z.eqb_spec c 10); [lia|]. destruct (Z.leb_spec 128 c); [lia|]. reflexivity. }
  all: match goal with V : 0 <= ?c < 55296 \/ _ |- _ => repeat match goal with |- context [if c =? ?k then _ else _] => let E := fresh in destruct (Z.eqb_spec c k) as [E|]; [rewrite E; reflexivity|] end end.
  - destruct (Z.ltb_spec c 32); [lia|]. destruct (Z.ltb_spec c 65536).
    + cbn [app]. unfold rune_literal. change (92 =? 92) with true. cbn iota. unfold escape.
      change (117 =? 117) with true. rewrite hex_digits by lia. change (16 ^ Z.of_nat 4) with 65536. rewrite Z.mod_small by lia. rewrite Z.mul_0_l, Z.add_0_l.
      replace (scalar c) with true by (symmetry; apply scalar_iff; lia). reflexivity.
    + cbn [app]. unfold rune_literal. change (92 =? 92) with true. cbn iota. unfold escape.
      change (85 =? 85) with true. rewrite hex_digits by lia. change (16 ^ Z.of_nat 8) with 4294967296. rewrite Z.mod_small by lia. rewrite Z.mul_0_l, Z.add_0_l.
      replace (scalar c) with true by (symmetry; apply scalar_iff; lia). reflexivity.
  - destruct (Z.ltb_spec c 32); [|lia]. cbn [app]. unfold rune_literal. change (92 =? 92) with true. cbn iota. unfold escape.
    change (120 =? 120) with true. rewrite hex_digits by lia. change (16 ^ Z.of_nat 2) with 256. rewrite Z.mod_small by lia. rewrite Z.mul_0_l, Z.add_0_l. reflexivity.
Qed.
Lemma eats_runes i rs : 0 < i -> eats true (print_runes i rs) (flat_map (fun r => [Sym 44; Rune (fixed r)]) rs) true.
Proof.
  revert i. induction rs as [|r t IH]; intros i I; [apply eats_nil|]. cbn [print_runes flat_map]. replace (0 <? i) with true by lia.
  change (eats true ?s ([Sym 44; Rune (fixed r)] ++ ?x) true) with (eats true s ([Sym 44] ++ [Rune (fixed r)] ++ x) true).
  eapply eats_app.
  - change [Sym 44] with ([Sym 44] ++ []). eapply (eats_app _ [44; 32] _ false).
    + change [Sym 44] with ([Sym 44] ++ []). change [44; 32] with ([44] ++ [32]). eapply (eats_app _ _ _ false); now apply eats_one.
    + destruct ((i + 2) mod 8 =? 0); [|apply eats_nil]. intros rest. cbn [app].
      do 5 (erewrite tokens_step by reflexivity; rewrite map_app0). now rewrite map_app0.
  - eapply eats_app; [apply eats_quoted|]. apply IH. lia.
Qed.
Definition rune_toks (rs : list Z) : list tok :=
  match rs with [] => [] | r :: t => Rune (fixed r) :: flat_map (fun r => [Sym 44; Rune (fixed r)]) t end.
Lemma eats_list rs : eats false (print_runes 0 rs ++ [41]) (rune_toks rs ++ [Sym 41]) true.
Proof.
  destruct rs as [|r t]; cbn [print_runes rune_toks].
  - cbn [app]. now apply eats_one.
  - change (0 <? 0) with false. cbn [app]. change (Rune (fixed r) :: _) with ([Rune (fixed r)] ++ (flat_map (fun r => [Sym 44; Rune (fixed r)]) t ++ [Sym 41])).
    rewrite <- app_assoc. eapply eats_app; [apply eats_quoted|]. eapply eats_app; [apply eats_runes; lia|]. now apply eats_one.
Qed.
Lemma args_cons c r : args (Rune c :: Sym 44 :: r) = match args r with Some (cs, r') => Some (c :: cs, r') | None => None end.
Proof. reflexivity. Qed.
Lemma args_toks rs r : call_args (rune_toks rs ++ Sym 41 :: r) = Some (map fixed rs, r).
Proof.
  destruct rs as [|x t]; [reflexivity|]. cbn [rune_toks app]. unfold call_args.
  revert x. induction t as [|y t IH]; intros x; [reflexivity|]. cbn [flat_map app map]. rewrite args_cons. specialize (IH y). cbn [map] in IH. now rewrite IH.
Qed.

(* ---- one class ---- *)
Record spec_ok (g : spec) : Prop := mkok { ok_type : ident (g_type g); ok_last : ident (g_last g); ok_title : ~ In 10 (g_title g) }.
(* a key: an identifier, perhaps behind blanks *)
Definition key_ok (k : list Z) : Prop := exists gap id, Forall blank gap /\ ident id /\ k = gap ++ id.
Fixpoint key_name (k : list Z) : list Z := match k with b :: t => if (b =? 32) || (b =? 9) then key_name t else k | [] => [] end.
Lemma key_name_ok gap id : Forall blank gap -> ident id -> key_name (gap ++ id) = id.
Proof.
  intros G I. induction G as [|b t B F IH].
  - destruct id as [|b t]; [contradiction|]. cbn. destruct I as [L _]. destruct (Z.eqb_spec b 32) as [->|]; [discriminate|]. destruct (Z.eqb_spec b 9) as [->|]; [discriminate|reflexivity].
  - cbn. destruct B as [-> | ->]; exact IH.
Qed.
Lemma ident_no_nl s : alnum s -> ~ In 10 s.
Proof. unfold alnum. intros A I. rewrite forallb_forall in A. apply A in I. discriminate. Qed.
Lemma key_no_nl k : key_ok k -> ~ In 10 k.
Proof.
  intros (gap & id & G & I & ->) H. apply in_app_iff in H. destruct H as [H|H].
  - rewrite Forall_forall in G. apply G in H. unfold blank in H. lia.
  - now apply ident_no_nl in H; [|apply ident_alnum].
Qed.

Ltac lit := repeat match goal with |- context [bytes ?s] => let b := eval vm_compute in (bytes s) in change (bytes s) with b end.
Definition assign_toks (id : list Z) (rs : list Z) : list tok :=
  [Id id; Sym 61; Id w_rangetable; Sym 46; Id w_New; Sym 40] ++ rune_toks rs ++ [Sym 41; Semi].
Definition store_toks (g : spec) (id : list Z) : list tok :=
  [Id (bytes "rangeFrom" ++ g_type g); Sym 91; Id w_int; Sym 40; Id (id ++ bytes "Class"); Sym 41; Sym 93; Sym 61; Id id; Semi].
Lemma eats_comment_line g k : spec_ok g -> ~ In 10 k -> eats false (newline ++ bytes "    // Range for " ++ g_title g ++ bytes " class " ++ k ++ newline) [] false.
Proof.
  intros OK K. change (bytes "    // Range for ") with ([32; 32; 32; 32] ++ [47; 47] ++ bytes " Range for "). change newline with [10].
  replace ([10] ++ ([32; 32; 32; 32] ++ [47; 47] ++ bytes " Range for ") ++ g_title g ++ bytes " class " ++ k ++ [10])
    with ([10] ++ [32; 32; 32; 32] ++ ([47; 47] ++ (bytes " Range for " ++ g_title g ++ bytes " class " ++ k) ++ [10])) by (rewrite <- !app_assoc; reflexivity).
  change (@nil tok) with (@nil tok ++ [] ++ []). eapply eats_app; [apply (eats_newline false)|]. eapply eats_app; [apply eats_blank; repeat constructor|].
  apply (eats_comment false). rewrite !in_app_iff. intros [H|[H|[H|H]]]; [|now apply (ok_title g OK)| |contradiction].
  all: revert H; vm_compute; intuition discriminate.
Qed.
Lemma eats_key last k c ts last' : key_ok k -> letter c || digit c = false -> (forall rest, lex1 true (c :: rest) = Some (ts, last', rest)) ->
  eats last (k ++ [c]) (Id (key_name k) :: ts) last'.
Proof.
  intros (gap & id & G & I & ->) C H. rewrite key_name_ok by assumption. rewrite <- app_assoc. change (Id id :: ts) with ([] ++ Id id :: ts).
  eapply eats_app; [now apply eats_blank|]. now apply eats_ident.
Qed.
Lemma eats_assign k rs : key_ok k -> eats false (bytes "    " ++ k ++ bytes " = rangetable.New(" ++ print_runes 0 rs ++ bytes ")" ++ newline) (assign_toks (key_name k) rs) false.
Proof.
  intros K. change (bytes " = rangetable.New(") with ([32] ++ bytes "= rangetable.New("). change newline with [10]. change (bytes ")") with [41].
  replace (bytes "    " ++ k ++ ([32] ++ bytes "= rangetable.New(") ++ print_runes 0 rs ++ [41] ++ [10])
    with (bytes "    " ++ (k ++ [32]) ++ bytes "= rangetable.New(" ++ (print_runes 0 rs ++ [41]) ++ [10]) by (rewrite <- !app_assoc; reflexivity).
  unfold assign_toks.
  change ([Id (key_name k); Sym 61; Id w_rangetable; Sym 46; Id w_New; Sym 40] ++ rune_toks rs ++ [Sym 41; Semi])
    with ([] ++ [Id (key_name k)] ++ [Sym 61; Id w_rangetable; Sym 46; Id w_New; Sym 40] ++ (rune_toks rs ++ [Sym 41] ++ [Semi])).
  rewrite (app_assoc (rune_toks rs)).
  eapply eats_app; [apply eats_blank; repeat constructor|]. eapply eats_app; [apply (eats_key _ _ _ [] true); auto|].
  eapply (eats_app _ _ _ false).
  - intros rest. lit. cbn [app]. repeat (erewrite tokens_step by reflexivity; rewrite ?map_app2). reflexivity.
  - eapply eats_app; [apply eats_list|]. apply (eats_newline true).
Qed.
Lemma eats_store g k : spec_ok g -> key_ok k ->
  eats false (bytes "    rangeFrom" ++ g_type g ++ bytes "[int(" ++ k ++ bytes "Class)] = " ++ k ++ newline) (store_toks g (key_name k)) false.
Proof.
  intros OK K. assert (KC : key_ok (k ++ bytes "Class") /\ key_name (k ++ bytes "Class") = key_name k ++ bytes "Class").
  { destruct K as (gap & id & G & I & ->). rewrite <- app_assoc. rewrite !key_name_ok; auto; [|apply ident_app; [auto|reflexivity]].
    split; auto. exists gap, (id ++ bytes "Class"). split; auto. split; auto. apply ident_app; [auto|reflexivity]. }
  destruct KC as [KC KN].
  change (bytes "    rangeFrom") with (bytes "    " ++ bytes "rangeFrom"). change (bytes "[int(") with ([91] ++ bytes "int(").
  change (bytes "Class)] = ") with (bytes "Class" ++ [41] ++ bytes "] = "). change newline with [10].
  replace ((bytes "    " ++ bytes "rangeFrom") ++ g_type g ++ ([91] ++ bytes "int(") ++ k ++ (bytes "Class" ++ [41] ++ bytes "] = ") ++ k ++ [10])
    with (bytes "    " ++ ((bytes "rangeFrom" ++ g_type g) ++ [91]) ++ bytes "int(" ++ ((k ++ bytes "Class") ++ [41]) ++ bytes "] = " ++ (k ++ [10])) by (rewrite <- !app_assoc; reflexivity).
  unfold store_toks. rewrite <- KN.
  change ([Id (bytes "rangeFrom" ++ g_type g); Sym 91; Id w_int; Sym 40; Id (key_name (k ++ bytes "Class")); Sym 41; Sym 93; Sym 61; Id (key_name k); Semi])
    with ([] ++ [Id (bytes "rangeFrom" ++ g_type g); Sym 91] ++ [Id w_int; Sym 40] ++ [Id (key_name (k ++ bytes "Class")); Sym 41] ++ [Sym 93; Sym 61] ++ [Id (key_name k); Semi]).
  eapply eats_app; [apply eats_blank; repeat constructor|].
  eapply eats_app; [apply (eats_ident _ _ _ [Sym 91] false); auto; apply ident_app; [split; reflexivity|apply ident_alnum, (ok_type g OK)]|].
  eapply (eats_app _ _ _ false). { intros rest. lit. cbn [app]. repeat (erewrite tokens_step by reflexivity; rewrite ?map_app2). reflexivity. }
  eapply eats_app; [apply (eats_key _ _ _ [Sym 41] true); auto|].
  eapply (eats_app _ _ _ false). { intros rest. lit. cbn [app]. repeat (erewrite tokens_step by reflexivity; rewrite ?map_app2). reflexivity. }
  apply (eats_key _ _ _ [Semi] false); auto.
Qed.
Lemma eats_class g k rs : spec_ok g -> key_ok k -> eats false (print_class g k rs) (assign_toks (key_name k) rs ++ store_toks g (key_name k)) false.
Proof.
  intros OK K. unfold print_class.
  replace (newline ++ bytes "    // Range for " ++ g_title g ++ bytes " class " ++ k ++ newline ++ bytes "    " ++ k ++ bytes " = rangetable.New(" ++ print_runes 0 rs ++ bytes ")" ++ newline ++
      bytes "    rangeFrom" ++ g_type g ++ bytes "[int(" ++ k ++ bytes "Class)] = " ++ k ++ newline)
    with ((newline ++ bytes "    // Range for " ++ g_title g ++ bytes " class " ++ k ++ newline) ++ (bytes "    " ++ k ++ bytes " = rangetable.New(" ++ print_runes 0 rs ++ bytes ")" ++ newline) ++
      (bytes "    rangeFrom" ++ g_type g ++ bytes "[int(" ++ k ++ bytes "Class)] = " ++ k ++ newline)) by (rewrite <- !app_assoc; reflexivity).
  change (assign_toks (key_name k) rs ++ store_toks g (key_name k)) with ([] ++ assign_toks (key_name k) rs ++ store_toks g (key_name k)).
  eapply eats_app; [apply eats_comment_line; auto; now apply key_no_nl|]. eapply eats_app; [now apply eats_assign|now apply eats_store].
Qed.

(* ---- the whole function ---- *)
Definition class_toks (g : spec) (kl : list Z * list Z) : list tok := assign_toks (key_name (fst kl)) (snd kl) ++ store_toks g (key_name (fst kl)).
Lemma eats_classes g tbl : spec_ok g -> Forall (fun kl => key_ok (fst kl)) tbl ->
  eats false (concat (map (fun kl => print_class g (fst kl) (snd kl)) tbl)) (concat (map (class_toks g) tbl)) false.
Proof.
  intros OK. induction 1 as [|kl t K F IH]; cbn [map concat]; [apply eats_nil|]. eapply eats_app; [now apply eats_class|exact IH].
Qed.
Definition head (g : spec) : list Z :=
  newline ++ bytes "func " ++ setup_name g ++ bytes "() {" ++ newline ++
  bytes "    rangeFrom" ++ g_type g ++ bytes " = make([]*unicode.RangeTable, int(" ++ g_last g ++ bytes "Class)+1)" ++ newline.
Definition head_toks (g : spec) : list tok :=
  [Id w_func; Id (setup_name g); Sym 40; Sym 41; Sym 123;
    Id (bytes "rangeFrom" ++ g_type g); Sym 61; Id w_make; Sym 40; Sym 91; Sym 93; Sym 42; Id (bytes "unicode"); Sym 46; Id (bytes "RangeTable"); Sym 44;
    Id w_int; Sym 40; Id (g_last g ++ bytes "Class"); Sym 41; Sym 43; Num 1; Sym 41; Semi].
Lemma eats_head g : spec_ok g -> eats false (head g) (head_toks g) false.
Proof.
  intros OK. unfold head.
  change (bytes "() {") with ([40] ++ bytes ") {"). change (bytes "    rangeFrom") with (bytes "    " ++ bytes "rangeFrom").
  change (bytes " = make([]*unicode.RangeTable, int(") with ([32] ++ bytes "= make([]*unicode.RangeTable, int("). change (bytes "Class)+1)") with (bytes "Class" ++ [41] ++ bytes "+1)"). change newline with [10].
  replace ([10] ++ bytes "func " ++ setup_name g ++ ([40] ++ bytes ") {") ++ [10] ++ (bytes "    " ++ bytes "rangeFrom") ++ g_type g ++ ([32] ++ bytes "= make([]*unicode.RangeTable, int(") ++ g_last g ++ (bytes "Class" ++ [41] ++ bytes "+1)") ++ [10])
    with (([10] ++ bytes "func ") ++ (setup_name g ++ [40]) ++ (bytes ") {" ++ [10] ++ bytes "    ") ++ ((bytes "rangeFrom" ++ g_type g) ++ [32]) ++ bytes "= make([]*unicode.RangeTable, int(" ++ ((g_last g ++ bytes "Class") ++ [41]) ++ (bytes "+1)" ++ [10]))
    by (rewrite <- !app_assoc; reflexivity).
  unfold head_toks.
  change ([Id w_func; Id (setup_name g); Sym 40; Sym 41; Sym 123; Id (bytes "rangeFrom" ++ g_type g); Sym 61; Id w_make; Sym 40; Sym 91; Sym 93; Sym 42; Id (bytes "unicode"); Sym 46; Id (bytes "RangeTable"); Sym 44;
    Id w_int; Sym 40; Id (g_last g ++ bytes "Class"); Sym 41; Sym 43; Num 1; Sym 41; Semi])
    with ([Id w_func] ++ [Id (setup_name g); Sym 40] ++ [Sym 41; Sym 123] ++ [Id (bytes "rangeFrom" ++ g_type g)] ++ [Sym 61; Id w_make; Sym 40; Sym 91; Sym 93; Sym 42; Id (bytes "unicode"); Sym 46; Id (bytes "RangeTable"); Sym 44; Id w_int; Sym 40] ++
      [Id (g_last g ++ bytes "Class"); Sym 41] ++ [Sym 43; Num 1; Sym 41; Semi]).
  eapply (eats_app _ _ _ true). { intros rest. lit. cbn [app]. repeat (erewrite tokens_step by reflexivity; rewrite ?map_app2). reflexivity. }
  eapply eats_app.
  { apply (eats_ident _ _ _ [Sym 40] false); auto. unfold setup_name. apply ident_app; [split; reflexivity|]. apply alnum_app; [apply ident_alnum, (ok_type g OK)|reflexivity]. }
  eapply (eats_app _ _ _ false). { intros rest. lit. cbn [app]. repeat (erewrite tokens_step by reflexivity; rewrite ?map_app2). reflexivity. }
  eapply eats_app. { apply (eats_ident _ _ _ [] true); auto. apply ident_app; [split; reflexivity|apply ident_alnum, (ok_type g OK)]. }
  eapply (eats_app _ _ _ false). { intros rest. lit. cbn [app]. repeat (erewrite tokens_step by reflexivity; rewrite ?map_app2). reflexivity. }
  eapply eats_app. { apply (eats_ident _ _ _ [Sym 41] true); auto. apply ident_app; [apply (ok_last g OK)|reflexivity]. }
  intros rest. lit. cbn [app]. repeat (erewrite tokens_step by reflexivity; rewrite ?map_app2). reflexivity.
Qed.
Lemma generateRanges_head g tbl : generateRanges g tbl = head g ++ concat (map (fun kl => print_class g (fst kl) (snd kl)) tbl) ++ bytes "}" ++ newline.
Proof. unfold generateRanges, head. rewrite <- !app_assoc. reflexivity. Qed.

(* running the statements of one class *)
Definition after (tbl : list (list Z * list Z)) : list (list Z * list Z) := rev (map (fun kl => (key_name (fst kl), map fixed (snd kl))) tbl).
Definition placed (tbl : list (list Z * list Z)) : list (list Z * list Z) := rev (map (fun kl => (key_name (fst kl) ++ bytes "Class", map fixed (snd kl))) tbl).
Lemma run_class n g id rs vars places ts :
  statements (S (S n)) (bytes "rangeFrom" ++ g_type g) vars places (assign_toks id rs ++ store_toks g id ++ ts) =
  statements n (bytes "rangeFrom" ++ g_type g) ((id, map fixed rs) :: vars) ((id ++ bytes "Class", map fixed rs) :: places) ts.
Proof.
  unfold assign_toks. cbn [app]. rewrite <- !app_assoc. cbn [app].
  remember (bytes "rangeFrom" ++ g_type g) as tb eqn:TB. cbn [statements]. change (eqb_list w_rangetable w_rangetable && eqb_list w_New w_New) with true. cbn iota.
  rewrite args_toks. unfold store_toks. rewrite <- TB. cbn [app].
  rewrite eqb_list_refl. change (true && eqb_list w_int w_int) with true. cbn iota. cbn [value]. now rewrite eqb_list_refl.
Qed.
Lemma run_classes g : forall tbl n vars places ts, statements (2 * length tbl + n) (bytes "rangeFrom" ++ g_type g) vars places (concat (map (class_toks g) tbl) ++ ts) =
  statements n (bytes "rangeFrom" ++ g_type g) (after tbl ++ vars) (placed tbl ++ places) ts.
Proof.
  unfold after, placed. induction tbl as [|[k l] t IH]; intros n vars places ts; [reflexivity|].
  cbn [length map concat rev]. replace (2 * S (length t) + n)%nat with (S (S (2 * length t + n))) by lia. unfold class_toks at 1. cbn [fst snd].
  rewrite <- !app_assoc. rewrite run_class, IH. cbn [app]. reflexivity.
Qed.
Lemma class_toks_length g tbl : (2 * length tbl <= length (concat (map (class_toks g) tbl)))%nat.
Proof. induction tbl as [|kl t IH]; cbn [length map concat]; [lia|]. rewrite app_length. unfold class_toks at 1, assign_toks. rewrite !app_length. cbn [length]. lia. Qed.
Lemma setup_head g ts : setup_function (head_toks g ++ ts) = option_map (pair (setup_name g)) (statements (length ts) (bytes "rangeFrom" ++ g_type g) [] [] ts).
Proof. reflexivity. Qed.

Theorem program_ok g tbl : spec_ok g -> Forall (fun kl => key_ok (fst kl)) tbl -> program (generateRanges g tbl) = Some (setup_name g, (after tbl, placed tbl)).
Proof.
  intros OK F. unfold program. rewrite generateRanges_head, (eats_head g OK), (eats_classes g tbl OK F), map_app2.
  replace (tokens false (bytes "}" ++ newline)) with (Some [Sym 125; Semi]) by reflexivity. cbn [option_map]. rewrite <- app_assoc, setup_head.
  pose proof (class_toks_length g tbl) as L. set (cs := concat (map (class_toks g) tbl)) in *.
  replace (length (cs ++ [Sym 125; Semi])) with (2 * length tbl + S (length cs - 2 * length tbl + 1))%nat by (rewrite app_length; cbn [length]; lia).
  unfold cs at 2. rewrite run_classes. cbn [statements]. now rewrite !app_nil_r.
Qed.
(* a class without a name spoils the program *)
Lemma eats_no_name g rs : spec_ok g -> exists s, print_class g [] rs = s ++ bytes "= rangetable.New(" ++ print_runes 0 rs ++ bytes ")" ++ newline ++ bytes "    rangeFrom" ++ g_type g ++ bytes "[int(" ++ bytes "Class)] = " ++ newline /\ eats false s [] false.
Proof.
  intros OK. exists ((newline ++ bytes "    // Range for " ++ g_title g ++ bytes " class " ++ newline) ++ bytes "     "). split.
  - unfold print_class. rewrite <- !app_assoc. reflexivity.
  - change (@nil tok) with (@nil tok ++ []). eapply eats_app; [|apply eats_blank; repeat constructor].
    change (bytes " class " ++ newline) with (bytes " class " ++ [] ++ newline). apply eats_comment_line; auto.
Qed.
Theorem program_no_name g tbl rs tbl' : spec_ok g -> Forall (fun kl => key_ok (fst kl)) tbl -> program (generateRanges g (tbl ++ ([], rs) :: tbl')) = None.
Proof.
  intros OK F. unfold program. rewrite generateRanges_head, (eats_head g OK), map_app, concat_app, <- !app_assoc, (eats_classes g tbl OK F), map_app2.
  cbn [map concat fst snd]. destruct (eats_no_name g rs OK) as (s & -> & E). rewrite <- !app_assoc, E, map_app0.
  change (bytes "= rangetable.New(") with ([61] ++ bytes " rangetable.New("). rewrite <- app_assoc.
  rewrite (eats_one false 61 [Sym 61] false) by reflexivity.
  destruct (tokens false _) as [ts|]; [|reflexivity]. cbn [option_map]. rewrite <- app_assoc, setup_head.
  set (cs := concat (map (class_toks g) tbl)) in *. pose proof (class_toks_length g tbl) as L. fold cs in L.
  replace (length (cs ++ [Sym 61] ++ ts)) with (2 * length tbl + S (length cs - 2 * length tbl + length ts))%nat by (rewrite app_length; cbn [length app]; lia).
  unfold cs at 2. rewrite run_classes. reflexivity.
Qed.
