(* GoTablesProofs.v -- what the table generator prints is Go source of exactly the tables it has collected. *)
From Coq Require Import List ZArith Lia Bool.
From Verif Require Import Base Ucd UcdProofs RangeTable RangeTableProofs GoTables.
From Verif Require GoSource Generator GeneratorProofs GeneratorFileProofs.
Import ListNotations.
Open Scope Z_scope.

Notation bytes := Generator.bytes.
Notation ident := GeneratorProofs.ident.
Notation alnum := GeneratorProofs.alnum.

(* ---- the lexer ---- *)
Definition reads (st : lstate) (s : list Z) (ts : list gtok) (st' : lstate) : Prop := lex st s = Some (st', ts).
Lemma reads_app st s ts m t us st' : reads st s ts m -> reads m t us st' -> reads st (s ++ t) (ts ++ us) st'.
Proof.
  unfold reads. revert st ts. induction s as [|c s IH]; intros st ts A B; cbn [lex app] in *.
  - injection A as <- <-. exact B.
  - destruct (step st c) as [[st1 t1]|]; [|discriminate]. destruct (lex st1 s) as [[st2 t2]|] eqn:E; [|discriminate]. injection A as <- <-.
    rewrite (IH st1 t2 E B), app_assoc. reflexivity.
Qed.
Lemma reads_silent st s m t us st' : reads st s [] m -> reads m t us st' -> reads st (s ++ t) us st'.
Proof. intros A B. exact (reads_app _ _ _ _ _ _ _ A B). Qed.
Lemma reads_nil st : reads st [] [] st.
Proof. reflexivity. Qed.

Lemma reads_id x s : alnum s -> reads (InId x) s [] (InId (x ++ s)).
Proof.
  unfold reads, GeneratorProofs.alnum. revert x. induction s as [|c s IH]; intros x A; [rewrite app_nil_r; reflexivity|].
  cbn [forallb] in A. apply andb_true_iff in A. destruct A as [A1 A2]. cbn [lex step]. rewrite A1, (IH (x ++ [c]) A2), <- app_assoc. reflexivity.
Qed.
Lemma reads_name last x : ident x -> reads (Start last) x [] (InId x).
Proof.
  destruct x as [|c t]; [contradiction|]. intros [L A]. unfold reads. cbn [lex step]. unfold start. destruct (GeneratorProofs.letter_other c L) as [-> ->]. rewrite L.
  pose proof (reads_id [c] t A) as R. unfold reads in R. rewrite R. reflexivity.
Qed.
Lemma reads_hex k : forall v acc, 0 <= v -> reads (InHex acc) (Generator.hexdigits k v) [] (InHex (acc * 16 ^ Z.of_nat k + v mod 16 ^ Z.of_nat k)).
Proof.
  induction k as [|k IH]; intros v acc V.
  - unfold reads. cbn [Generator.hexdigits lex]. rewrite Z.mod_1_r. do 3 f_equal. lia.
  - cbn [Generator.hexdigits]. eapply reads_silent; [apply IH; apply Z.div_pos; lia|]. unfold reads. cbn [lex step].
    rewrite GeneratorProofs.hexdigit_lower by (apply Z.mod_pos_bound; lia). do 3 f_equal.
    replace (Z.of_nat (S k)) with (Z.succ (Z.of_nat k)) by lia. rewrite Z.pow_succ_r by lia.
    rewrite (Z.rem_mul_r v 16 (16 ^ Z.of_nat k)) by lia. ring.
Qed.
Lemma reads_hex_start k v : (0 < k)%nat -> 0 <= v < 16 ^ Z.of_nat k -> reads HexStart (Generator.hexdigits k v) [] (InHex v).
Proof.
  intros K V. pose proof (reads_hex k v 0 ltac:(lia)) as H. rewrite Z.mod_small in H by lia. rewrite Z.mul_0_l, Z.add_0_l in H.
  assert (HD : exists c t, Generator.hexdigits k v = c :: t).
  { destruct k as [|k]; [lia|]. cbn [Generator.hexdigits]. destruct (Generator.hexdigits k (v / 16)) as [|c t]; cbn [app]; eauto. }
  destruct HD as (c & t & E). rewrite E in *. unfold reads in *. cbn [lex step] in *. destruct (GoSource.hexdigit c) as [d|]; [rewrite Z.mul_0_l, Z.add_0_l in H; exact H|].
  exfalso. destruct (letter c); [discriminate|]. destruct (start true c) as [[st ts]|]; cbn [emit] in H; [|discriminate].
  destruct (lex st t) as [[? ?]|]; [|discriminate]. discriminate.
Qed.
Lemma reads_hex04 last v : 0 <= v < 2 ^ 32 -> reads (Start last) (hex04 v) [] (InHex v).
Proof.
  intros V. unfold hex04. eapply (reads_silent _ _ HexStart); [reflexivity|]. apply reads_hex_start; unfold hex_width.
  - destruct (v <? 16 ^ 4), (v <? 16 ^ 5), (v <? 16 ^ 6), (v <? 16 ^ 7); lia.
  - destruct (Z.ltb_spec v (16 ^ 4)); [lia|]. destruct (Z.ltb_spec v (16 ^ 5)); [lia|]. destruct (Z.ltb_spec v (16 ^ 6)); [lia|]. destruct (Z.ltb_spec v (16 ^ 7)); [lia|].
    change (16 ^ Z.of_nat 8) with (2 ^ 32). lia.
Qed.
Lemma reads_dec s : forall v, forallb digit s = true -> reads (InNum v) s [] (InNum (fold_left (fun a d => a * 10 + (d - 48)) s v)).
Proof.
  unfold reads. induction s as [|c s IH]; intros v D; [reflexivity|]. cbn [forallb] in D. apply andb_true_iff in D. destruct D as [D1 D2].
  cbn [lex step fold_left]. rewrite D1, (IH _ D2). reflexivity.
Qed.
Lemma udigits_head m : forall v, 0 < v < 10 ^ Z.of_nat m -> exists c t, Generator.udigits m v = c :: t /\ 49 <= c <= 57.
Proof.
  induction m as [|m IH]; intros v V; [cbn in V; lia|]. cbn [Generator.udigits]. destruct (Z.ltb_spec v 10).
  - cbn [app]. eexists _, _. split; [reflexivity|]. rewrite Z.mod_small by lia. lia.
  - replace (Z.of_nat (S m)) with (Z.succ (Z.of_nat m)) in V by lia. rewrite Z.pow_succ_r in V by lia.
    destruct (IH (v / 10)) as (c & t & E & R). { split; [apply Z.div_str_pos; lia|apply Z.div_lt_upper_bound; lia]. }
    rewrite E. cbn [app]. eauto.
Qed.
Lemma reads_itoa last v : 0 < v < 10 ^ 20 -> reads (Start last) (Generator.itoa v) [] (InNum v).
Proof.
  intros V. unfold Generator.itoa. replace (v <? 0) with false by lia. destruct (udigits_head 20 v) as (c & t & E & R); [exact V|].
  pose proof (GeneratorFileProofs.udigits_value 20 v ltac:(split; [lia|apply V])) as D. pose proof (GeneratorFileProofs.udigits_digits 20 v ltac:(lia)) as DG.
  rewrite E in *. cbn [forallb] in DG. apply andb_true_iff in DG. destruct DG as [DG1 DG2].
  unfold reads. cbn [lex step]. unfold start. destruct (GeneratorFileProofs.digit_other c DG1) as (-> & -> & ->). replace (c =? 48) with false by lia. rewrite DG1.
  pose proof (reads_dec t (c - 48) DG2) as H. unfold reads in H. rewrite H. cbn [app]. do 3 f_equal. unfold GeneratorFileProofs.dec in D. cbn [fold_left] in D. rewrite <- D. f_equal.
Qed.
Lemma reads_comment last s : ~ In 10 s -> reads (Comment last) s [] (Comment last).
Proof.
  unfold reads. induction s as [|c s IH]; intros N; [reflexivity|]. cbn [lex step]. destruct (Z.eqb_spec c 10) as [->|]; [exfalso; apply N; left; reflexivity|].
  rewrite IH; [reflexivity|]. intros I. apply N. right. exact I.
Qed.
Lemma itoa_line v : 0 <= v -> ~ In 10 (Generator.itoa v).
Proof.
  intros V I. unfold Generator.itoa in I. replace (v <? 0) with false in I by lia. pose proof (GeneratorFileProofs.udigits_digits 20 v V) as D.
  rewrite forallb_forall in D. specialize (D 10 I). discriminate D.
Qed.

(* ---- the tokens of the generated text ---- *)
Definition range_toks (x : Z * Z) : list gtok := [GSym 123; GInt (fst x); GSym 44; GInt (snd x); GSym 44; GInt 1; GSym 125; GSym 44].
Definition head_toks (f t : list Z) : list gtok := [GId f; GSym 58; GSym 91; GSym 93; GId w_unicode; GSym 46; GId t; GSym 123].
Definition body_toks (rt : collector) : list gtok :=
  let '(a, b, off) := Output rt in
  flat_map range_toks a ++ (match b with [] => [] | _ => [GSym 125; GSym 44] ++ head_toks w_R32 w_Range32 ++ flat_map range_toks b end) ++
  [GSym 125; GSym 44] ++ (if 0 <? off then [GId w_LatinOffset; GSym 58; GInt off; GSym 44] else []) ++ [GSym 125; GSemi].
Definition table_toks (k : list Z) (rt : collector) : list gtok :=
  [GId w_var; GId (95 :: k); GSym 61; GSym 38; GId w_unicode; GSym 46; GId w_RangeTable; GSym 123] ++ head_toks w_R16 w_Range16 ++ body_toks rt.
Definition var_toks (k : list Z) : list gtok := [GId k; GSym 42; GId w_unicode; GSym 46; GId w_RangeTable; GSym 61; GId (95 :: k); GSemi].
Definition file_toks (pkg : list Z) (tabs : list (list Z * collector)) (vars : list (list Z)) : list gtok :=
  [GId w_package; GId pkg; GSemi; GId w_import; GStr w_unicode; GSemi] ++ flat_map (fun x => table_toks (fst x) (snd x)) tabs ++
  [GId w_var; GSym 40] ++ flat_map var_toks vars ++ [GSym 41; GSemi].

Lemma reads_range x : 0 <= fst x < 2 ^ 32 -> 0 <= snd x < 2 ^ 32 -> reads (Start false) (print_range x) (range_toks x) (Start false).
Proof.
  intros A B. unfold print_range, range_toks. eapply (reads_app _ [9; 9] [] (Start false)); [reflexivity|].
  eapply (reads_app _ _ [GSym 123] (Start false)); [reflexivity|]. eapply reads_silent; [apply reads_hex04, A|].
  eapply (reads_app _ _ [GInt (fst x); GSym 44] (Start false)); [reflexivity|]. eapply reads_silent; [apply reads_hex04, B|].
  eapply (reads_app _ _ [GInt (snd x); GSym 44; GInt 1; GSym 125; GSym 44] (Start false)); [reflexivity|]. reflexivity.
Qed.
Definition small (lim : Z) (x : Z * Z) : Prop := 0 <= fst x < lim /\ 0 <= snd x < lim.
Lemma reads_ranges_plain sw : forall rs i, Forall (small (2 ^ 32)) rs -> (0 < sw -> forall j, i <= j < i + zlen rs -> j <> sw) ->
  reads (Start false) (print_ranges sw i rs) (flat_map range_toks rs) (Start false).
Proof.
  induction rs as [|x t IH]; intros i F N; [reflexivity|]. inversion F as [|? ? [A B] F']; subst. cbn [print_ranges flat_map]. rewrite zlen_cons in N. pose proof (zlen_nonneg t).
  replace ((0 <? sw) && (i =? sw)) with false.
  2:{ symmetry. destruct (Z.ltb_spec 0 sw); [|reflexivity]. cbn [andb]. apply Z.eqb_neq. apply N; lia. }
  cbn [app]. eapply reads_app; [apply reads_range; assumption|]. apply IH; [exact F'|]. intros P j J. apply N; lia.
Qed.
Lemma reads_ranges sw : forall a b i, Forall (small (2 ^ 32)) a -> Forall (small (2 ^ 32)) b -> 0 < sw -> sw = i + zlen a -> b <> [] ->
  reads (Start false) (print_ranges sw i (a ++ b)) (flat_map range_toks a ++ [GSym 125; GSym 44] ++ head_toks w_R32 w_Range32 ++ flat_map range_toks b) (Start false).
Proof.
  induction a as [|x t IH]; intros b i FA FB P E NB.
  - change (zlen []) with 0 in E. cbn [app flat_map]. destruct b as [|y u]; [congruence|]. inversion FB as [|? ? [A B] F']; subst. cbn [print_ranges flat_map].
    replace ((0 <? i + 0) && (i =? i + 0)) with true by lia.
    change (GSym 125 :: GSym 44 :: head_toks w_R32 w_Range32 ++ range_toks y ++ flat_map range_toks u) with (([GSym 125; GSym 44] ++ head_toks w_R32 w_Range32) ++ range_toks y ++ flat_map range_toks u).
    eapply reads_app; [reflexivity|]. eapply reads_app; [apply reads_range; assumption|]. apply reads_ranges_plain; [exact F'|]. intros _ j J. lia.
  - inversion FA as [|? ? [A B] F']; subst. cbn [print_ranges flat_map app]. rewrite zlen_cons in *. pose proof (zlen_nonneg t).
    replace ((0 <? i + (zlen t + 1)) && (i =? i + (zlen t + 1))) with false by lia. cbn [app]. rewrite <- app_assoc. eapply reads_app; [apply reads_range; assumption|].
    apply IH; auto; lia.
Qed.

Record printable (rt : collector) : Prop := mkprintable {
  p_cnt : 0 <= cnt rt; p_switch : 0 <= switch32 rt; p_latin : 0 <= latinOffset rt < 2 ^ 63; p_ranges : Forall (small (2 ^ 32)) (ranges rt) }.
(* the entries printed under R16 fit uint16 *)
Definition fits16 (rt : collector) : Prop := Forall (small (2 ^ 16)) (fst (fst (Output rt))).

Lemma reads_body rt : printable rt -> reads (Start false) (print_ranges (switch32 rt) 0 (ranges rt))
  (let '(a, b, _) := Output rt in flat_map range_toks a ++ (match b with [] => [] | _ => [GSym 125; GSym 44] ++ head_toks w_R32 w_Range32 ++ flat_map range_toks b end)) (Start false).
Proof.
  intros [PC PS PL PR]. unfold Output. destruct (switch32 rt >? 0) eqn:G.
  - assert (P : 0 < switch32 rt) by lia. set (sw := switch32 rt) in *.
    rewrite <- (firstn_skipn (Z.to_nat sw) (ranges rt)) at 1. pose proof PR as PR'. rewrite <- (firstn_skipn (Z.to_nat sw) (ranges rt)), Forall_app in PR'. destruct PR' as [FA FB].
    destruct (skipn (Z.to_nat sw) (ranges rt)) as [|y u] eqn:E.
    + rewrite !app_nil_r. apply reads_ranges_plain; [exact FA|]. intros _ j J. unfold zlen in J. rewrite firstn_length in J. lia.
    + apply reads_ranges; auto; [|discriminate]. unfold zlen. rewrite firstn_length.
      pose proof (f_equal (@length _) E) as L. rewrite skipn_length in L. cbn [length] in L. lia.
  - rewrite app_nil_r. apply reads_ranges_plain; [exact PR|]. intros. lia.
Qed.
Lemma reads_table k rt : ident k -> printable rt -> reads (Start false) (print_table k rt) (table_toks k rt) (Start false).
Proof.
  intros K P. pose proof (reads_body rt P) as RB. destruct P as [PC PS PL PR]. unfold print_table, table_toks, body_toks.
  assert (EO : snd (Output rt) = latinOffset rt). { unfold Output. destruct (switch32 rt >? 0); reflexivity. }
  destruct (Output rt) as [[a b] off]. cbn [snd] in EO. subst off.
  match goal with |- reads _ _ (?h ++ ?r) _ => change (h ++ r) with ([GId w_var] ++ [GId (95 :: k); GSym 61; GSym 38; GId w_unicode; GSym 46; GId w_RangeTable; GSym 123] ++ r) end.
  eapply (reads_app _ _ _ (InId [95])); [reflexivity|]. eapply reads_silent; [apply (reads_id [95] k), GeneratorProofs.ident_alnum, K|].
  eapply (reads_app _ _ _ (Comment false)); [reflexivity|].
  eapply reads_silent; [apply reads_comment, itoa_line, PC|]. eapply (reads_silent _ _ (Comment false)); [reflexivity|]. eapply (reads_silent _ _ (Start false)); [reflexivity|].
  eapply (reads_app _ _ (head_toks w_R16 w_Range16) (Start false)); [reflexivity|]. eapply (reads_silent _ _ (Start false)); [reflexivity|].
  rewrite (app_assoc (flat_map range_toks a)). eapply reads_app; [exact RB|].
  destruct (0 <? latinOffset rt) eqn:G; [|reflexivity].
  eapply (reads_silent _ _ (Start false)); [reflexivity|]. eapply (reads_app _ _ [GSym 125; GSym 44] (Start false)); [reflexivity|].
  eapply (reads_silent _ _ (Start false)); [reflexivity|]. change ([GId w_LatinOffset; GSym 58; GInt (latinOffset rt); GSym 44] ++ [GSym 125; GSemi]) with ([GId w_LatinOffset; GSym 58] ++ [GInt (latinOffset rt); GSym 44] ++ [] ++ [GSym 125] ++ [GSemi]).
  eapply (reads_app _ _ _ (Start false)); [reflexivity|]. eapply reads_silent; [apply reads_itoa; lia|].
  eapply (reads_app _ _ _ (Start false)); [reflexivity|]. eapply (reads_app _ _ _ (Start false)); [reflexivity|].
  eapply (reads_app _ _ _ (Start true)); reflexivity.
Qed.
Lemma under_free k : keyword (95 :: k) = false.
Proof. reflexivity. Qed.
Lemma reads_var k : ident k -> reads (Start false) (print_var k) (var_toks k) (Start false).
Proof.
  intros K. unfold print_var, var_toks.
  eapply (reads_silent _ _ (Start false)); [reflexivity|]. eapply reads_silent; [apply reads_name, K|].
  change [GId k; GSym 42; GId w_unicode; GSym 46; GId w_RangeTable; GSym 61; GId (95 :: k); GSemi] with ([GId k; GSym 42; GId w_unicode; GSym 46; GId w_RangeTable; GSym 61] ++ [GId (95 :: k); GSemi]).
  eapply (reads_app _ _ _ (InId [95])); [reflexivity|]. eapply reads_silent; [apply (reads_id [95] k), GeneratorProofs.ident_alnum, K|].
  reflexivity.
Qed.
Lemma reads_tables tabs : Forall (fun x => ident (fst x) /\ printable (snd x)) tabs ->
  reads (Start false) (concat (map (fun x => print_table (fst x) (snd x)) tabs)) (flat_map (fun x => table_toks (fst x) (snd x)) tabs) (Start false).
Proof.
  induction 1 as [|x t [K P] F IH]; [reflexivity|]. rewrite map_cons, concat_cons. cbn [flat_map]. eapply reads_app; [apply reads_table; assumption|exact IH].
Qed.
Lemma reads_vars vars : Forall ident vars -> reads (Start false) (concat (map print_var vars)) (flat_map var_toks vars) (Start false).
Proof.
  induction 1 as [|x t K F IH]; [reflexivity|]. rewrite map_cons, concat_cons. cbn [flat_map]. eapply reads_app; [apply reads_var; assumption|exact IH].
Qed.
Lemma tokens_file pkg tabs vars : ident pkg -> keyword pkg = false -> Forall (fun x => ident (fst x) /\ printable (snd x)) tabs -> Forall ident vars ->
  gtokens (print_file pkg tabs vars) = Some (file_toks pkg tabs vars).
Proof.
  intros PI PK FT FV. unfold gtokens.
  assert (R : reads (Start false) (print_file pkg tabs vars) (file_toks pkg tabs vars) (Start false)).
  { unfold print_file, file_toks, print_preamble, print_var_section. rewrite <- !app_assoc.
    eapply (reads_silent _ _ (Comment false)); [reflexivity|]. eapply (reads_silent _ _ (Start false)); [reflexivity|].
    match goal with |- reads _ _ (?h ++ ?r) _ => change (h ++ r) with ([GId w_package] ++ [GId pkg; GSemi] ++ [GId w_import; GStr w_unicode] ++ [GSemi] ++ r) end.
    eapply (reads_app _ _ _ (Start false)); [reflexivity|]. eapply reads_silent; [apply reads_name, PI|].
    eapply (reads_app _ _ _ (Start false)). { unfold reads. cbn [lex step letter digit]. change (letter 10 || digit 10) with false. cbv iota. unfold ends. rewrite PK. reflexivity. }
    eapply (reads_app _ _ _ (Start true)); [reflexivity|]. eapply (reads_app _ _ _ (Start false)); [reflexivity|].
    eapply reads_app; [apply reads_tables, FT|]. eapply (reads_app _ _ _ (Start false)); [reflexivity|]. eapply (reads_silent _ _ (Start false)); [reflexivity|].
    eapply reads_app; [apply reads_vars, FV|]. reflexivity. }
  unfold reads in R. rewrite R. cbn [finish semi]. rewrite app_nil_r. reflexivity.
Qed.

(* ---- the parser ---- *)
Lemma entries_ranges lim : 1 < lim -> forall a n r, Forall (small lim) a -> (length a < n)%nat -> entries n lim (flat_map range_toks a ++ GSym 125 :: r) = Some (map with_stride a, r).
Proof.
  intros L. induction a as [|x t IH]; intros n r F N; (destruct n as [|n]; [cbn [length] in N; lia|]); [reflexivity|].
  inversion F as [|? ? [A B] F']; subst. cbn [length] in N. unfold range_toks at 1. cbn [flat_map app entries].
  replace ((fst x <? lim) && (snd x <? lim) && (1 <? lim)) with true by lia. rewrite IH by (auto; lia). reflexivity.
Qed.
Lemma flat_range_length a : (length a <= length (flat_map range_toks a))%nat.
Proof. induction a as [|x t IH]; [cbn; lia|]. cbn [flat_map]. rewrite app_length. cbn [length range_toks]. lia. Qed.
Lemma literal_table rt n r : printable rt -> fits16 rt -> (length (ranges rt) + 4 < n)%nat ->
  literal n (mkf None None None) (head_toks w_R16 w_Range16 ++ body_toks rt ++ r) = Some (table_of rt, GSemi :: r).
Proof.
  intros [PC PS PL PR] P16 N. unfold fits16 in P16. unfold table_of, body_toks.
  assert (EO : snd (Output rt) = latinOffset rt /\ ranges rt = fst (fst (Output rt)) ++ snd (fst (Output rt))).
  { unfold Output. destruct (switch32 rt >? 0); cbn [fst snd]; [rewrite firstn_skipn|rewrite app_nil_r]; auto. }
  destruct (Output rt) as [[a b] off]. cbn [fst snd] in *. destruct EO as [-> ER]. rewrite ER in *. rewrite app_length in N. apply Forall_app in PR. destruct PR as [_ FB].
  assert (LO : forall m f s, (2 < m)%nat -> f16 f = Some (map with_stride a) -> or_nil (f32 f) = map with_stride b -> flat f = None ->
    literal m f ((if 0 <? latinOffset rt then [GId w_LatinOffset; GSym 58; GInt (latinOffset rt); GSym 44] else []) ++ [GSym 125; GSemi] ++ s) =
    Some (mktab (map with_stride a) (map with_stride b) (latinOffset rt), GSemi :: s)).
  { intros m f s M E1 E2 E3. destruct m as [|[|m]]; [lia|lia|]. destruct (Z.ltb_spec 0 (latinOffset rt)) as [G|G].
    - cbn [app literal field]. change (same w_LatinOffset w_LatinOffset) with true. replace (latinOffset rt <? 2 ^ 63) with true by lia. cbn [andb]. rewrite E3.
      unfold table_of_fields. cbn [f16 f32 flat]. rewrite E1, E2. reflexivity.
    - cbn [app literal]. unfold table_of_fields. rewrite E1, E2, E3. cbn [or_nil]. do 3 f_equal. lia. }
  destruct n as [|n]; [lia|]. rewrite <- !app_assoc. cbn [literal head_toks app field].
  change (same w_unicode w_unicode) with true. change (same w_R16 w_R16 && same w_Range16 w_Range16) with true. cbv iota. cbn [negb f16 f32 flat].
  destruct b as [|y u].
  - cbn [app]. rewrite entries_ranges; [|lia|exact P16|lia]. cbn [map]. apply LO; auto. lia.
  - set (b := y :: u) in *. rewrite <- ?app_assoc. cbn [app]. rewrite entries_ranges; [|lia|exact P16|lia].
    destruct n as [|n]; [lia|]. cbn [literal head_toks app field]. change (same w_unicode w_unicode) with true. change (same w_R32 w_R16 && same w_Range32 w_Range16) with false.
    change (same w_R32 w_R32 && same w_Range32 w_Range32) with true. cbv iota. cbn [negb f16 f32 flat].
    rewrite entries_ranges; [|lia|exact FB|lia]. apply LO; auto. lia.
Qed.

Lemma table_toks_length k rt : (length (ranges rt) + 18 <= length (table_toks k rt))%nat.
Proof.
  unfold table_toks, body_toks. assert (ER : ranges rt = fst (fst (Output rt)) ++ snd (fst (Output rt))).
  { unfold Output. destruct (switch32 rt >? 0); cbn [fst snd]; [rewrite firstn_skipn|rewrite app_nil_r]; auto. }
  destruct (Output rt) as [[a b] off]. cbn [fst snd] in ER. rewrite ER, !app_length. cbn [length head_toks]. pose proof (flat_range_length a). pose proof (flat_range_length b).
  destruct b as [|y u]; [cbn [length] in *|rewrite !app_length; cbn [length head_toks] in *]; destruct (0 <? off); cbn [length app]; lia.
Qed.
Definition declared (tabs : list (list Z * collector)) : list (list Z * rtable) := map (fun x => (95 :: fst x, table_of (snd x))) tabs.
Lemma name_under k : ident k -> name (95 :: k) = true.
Proof. destruct k as [|c t]; [contradiction|]. reflexivity. Qed.
Lemma name_var k : ident k -> keyword k = false -> k <> [95] -> name k = true.
Proof.
  intros _ K N. unfold name. rewrite K. destruct (same k [95]) eqn:E; [|reflexivity]. apply GeneratorProofs.eqb_list_spec in E. contradiction.
Qed.
Lemma var_section_vars : forall vars r, Forall (fun k => ident k /\ name k = true) vars ->
  var_section (flat_map var_toks vars ++ GSym 41 :: r) = Some (map (fun k => (k, 95 :: k)) vars, r).
Proof.
  induction vars as [|k t IH]; intros r F; [reflexivity|]. inversion F as [|? ? [A B] F']; subst. unfold var_toks at 1. cbn [flat_map app var_section].
  rewrite B, (name_under k A). change (same w_unicode w_unicode) with true. change (same w_RangeTable w_RangeTable) with true. cbn [andb]. rewrite IH by exact F'. reflexivity.
Qed.
Lemma decls_file vars : Forall (fun k => ident k /\ name k = true) vars -> forall tabs n, Forall (fun x => ident (fst x) /\ printable (snd x) /\ fits16 (snd x)) tabs ->
  let ts := flat_map (fun x => table_toks (fst x) (snd x)) tabs ++ [GId w_var; GSym 40] ++ flat_map var_toks vars ++ [GSym 41; GSemi] in
  (length ts < n)%nat -> decls n ts = Some (declared tabs, map (fun k => (k, 95 :: k)) vars).
Proof.
  intros FV. induction tabs as [|[k rt] t IH]; intros n FT ts N; subst ts.
  - destruct n as [|[|n]]; [lia|cbn in N; lia|]. cbn [flat_map app] in *. cbn [decls]. change (same w_var w_var) with true. cbv iota.
    rewrite var_section_vars by exact FV. cbn [map]. rewrite app_nil_r. reflexivity.
  - inversion FT as [|? ? (A & P & P16) F']; subst. cbn [fst snd] in *. cbn [flat_map] in *. rewrite <- app_assoc in *. rewrite app_length in N.
    cbn [fst snd] in *. pose proof (table_toks_length k rt) as TL. destruct n as [|n]; [lia|]. unfold table_toks at 1. rewrite <- !app_assoc. cbn [app decls].
    rewrite (name_under k A). change (same w_var w_var) with true. change (same w_unicode w_unicode) with true. change (same w_RangeTable w_RangeTable) with true. cbn [andb].
    match goal with |- context [literal n _ (head_toks _ _ ++ _ ++ ?s)] => rewrite (literal_table rt n s P P16) by lia end.
    cbn [fst snd] in *. rewrite IH; [reflexivity|exact F'|]. lia.
Qed.
Lemma existsb_same x l : existsb (same x) l = false <-> ~ In x l.
Proof.
  rewrite <- not_true_iff_false, existsb_exists. split; intros H I; apply H.
  - exists x. split; [exact I|apply GeneratorProofs.eqb_list_refl].
  - destruct I as (y & Y & E). apply GeneratorProofs.eqb_list_spec in E. subst. exact Y.
Qed.
Lemma distinct_spec l : distinct l = true <-> NoDup l.
Proof.
  induction l as [|x t IH]; [split; [constructor|reflexivity]|]. cbn [distinct]. rewrite andb_true_iff, negb_true_iff, existsb_same, IH. split; [intros [A B]; constructor; auto|].
  intros N. inversion N; auto.
Qed.
Lemma get_in env x t : NoDup (map fst env) -> In (x, t) env -> get env x = Some t.
Proof.
  induction env as [|[y u] r IH]; [contradiction|]. cbn [map fst get]. intros N I. inversion N as [|? ? A B]; subst. destruct I as [I|I].
  - injection I as -> ->. now rewrite GeneratorProofs.eqb_list_refl.
  - destruct (same y x) eqn:E; [|now apply IH]. apply GeneratorProofs.eqb_list_spec in E. subst. exfalso. apply A. apply in_map_iff. exists (x, t). auto.
Qed.
Lemma resolve_vars ds : forall vars, (forall k, In k vars -> exists t, get ds (95 :: k) = Some t) ->
  exists e, resolve ds (map (fun k => (k, 95 :: k)) vars) = Some e /\ map fst e = vars /\ Forall (fun y => get ds (95 :: fst y) = Some (snd y)) e.
Proof.
  induction vars as [|k t IH]; intros H; [exists []; cbn; auto|]. destruct (H k (or_introl eq_refl)) as [u U]. destruct IH as (e & E & M & F); [intros; apply H; right; assumption|].
  exists ((k, u) :: e). cbn [map resolve]. rewrite U, E. split; [reflexivity|]. split; [cbn [map fst]; now rewrite M|constructor; assumption].
Qed.

(* identifiers that may be declared, all different, and each variable has its table *)
Record nameable (pkg : list Z) (tabs : list (list Z * collector)) (vars : list (list Z)) : Prop := mknameable {
  n_pkg : ident pkg /\ name pkg = true; n_tabs : Forall (fun x => ident (fst x)) tabs; n_vars : Forall (fun k => ident k /\ name k = true) vars;
  n_some : tabs <> []; n_dup : NoDup (w_unicode :: map (cons 95) (map fst tabs) ++ vars); n_incl : incl vars (map fst tabs) }.
Lemma name_keyword x : name x = true -> keyword x = false.
Proof. unfold name. rewrite andb_true_iff, !negb_true_iff. tauto. Qed.
Lemma source_tokens pkg tabs vars : nameable pkg tabs vars -> Forall (fun x => printable (snd x)) tabs ->
  gtokens (print_file pkg tabs vars) = Some (file_toks pkg tabs vars).
Proof.
  intros [[PI PN] NT NV NS ND NI] FT. apply tokens_file; auto using name_keyword.
  - rewrite Forall_forall in *. auto.
  - rewrite Forall_forall in *. intros k K. now apply NV.
Qed.
Theorem source_file pkg tabs vars : nameable pkg tabs vars -> Forall (fun x => printable (snd x) /\ fits16 (snd x)) tabs ->
  exists env, source (print_file pkg tabs vars) = Some (pkg, env) /\ map fst env = map (cons 95) (map fst tabs) ++ vars /\
    (forall k rt, In (k, rt) tabs -> get env (95 :: k) = Some (table_of rt)) /\ (forall k rt, In (k, rt) tabs -> In k vars -> get env k = Some (table_of rt)).
Proof.
  intros NM FT. pose proof NM as [[PI PN] NT NV NS ND NI].
  assert (MD : map fst (declared tabs) = map (cons 95) (map fst tabs)). { unfold declared. rewrite !map_map. reflexivity. }
  assert (NDD : NoDup (map fst (declared tabs))). { rewrite MD. inversion ND as [|? ? _ B]; subst. clear - B. induction (map (cons 95) (map fst tabs)) as [|x t IH]; [constructor|]. cbn [app] in B. inversion B; subst. constructor; [rewrite in_app_iff in *; tauto|auto]. }
  assert (GD : forall k rt, In (k, rt) tabs -> get (declared tabs) (95 :: k) = Some (table_of rt)).
  { intros k rt I. apply get_in; [exact NDD|]. unfold declared. apply in_map_iff. exists (k, rt). auto. }
  destruct (resolve_vars (declared tabs) vars) as (e & E & M & F).
  { intros k K. apply NI in K. apply in_map_iff in K. destruct K as ([k' rt] & <- & I). exists (table_of rt). now apply GD. }
  exists (declared tabs ++ e). split.
  - unfold source. rewrite source_tokens; [|exact NM|rewrite Forall_forall in *; intros x X; now apply FT]. unfold file_toks. cbn [app].
    change (same w_package w_package) with true. change (same w_import w_import) with true. change (same w_unicode w_unicode) with true. rewrite PN. cbn [andb].
    pose proof (decls_file vars NV tabs) as D. cbv zeta in D. cbn [app] in D. rewrite D; [|rewrite Forall_forall in *; intros x X; specialize (FT x X); specialize (NT x X); tauto|lia].
    rewrite MD. replace (map fst (map (fun k : list Z => (k, 95 :: k)) vars)) with vars by (rewrite map_map; cbn [fst]; now rewrite map_id). apply distinct_spec in ND. rewrite ND, E. destruct tabs; [congruence|reflexivity].
  - assert (ME : map fst (declared tabs ++ e) = map (cons 95) (map fst tabs) ++ vars) by (rewrite map_app, MD, M; reflexivity).
    split; [exact ME|]. assert (NE : NoDup (map fst (declared tabs ++ e))) by (rewrite ME; inversion ND; assumption). split.
    + intros k rt I. apply get_in; [exact NE|]. apply in_or_app. left. unfold declared. apply in_map_iff. exists (k, rt). auto.
    + intros k rt I K. apply get_in; [exact NE|]. apply in_or_app. right. rewrite <- M in K. apply in_map_iff in K. destruct K as ([k' t] & <- & J). rewrite Forall_forall in F. pose proof (F _ J) as G. cbn [fst snd] in *.
      rewrite (GD k' rt I) in G. injection G as <-. exact J.
Qed.

(* ---- files that do not compile ---- *)
Lemma entries_overflow lim : 1 < lim -> forall a n r, Forall (small (2 ^ 32)) a -> ~ Forall (small lim) a -> entries n lim (flat_map range_toks a ++ r) = None.
Proof.
  intros L. induction a as [|x t IH]; intros n r F N; [exfalso; apply N; constructor|]. destruct n as [|n]; [reflexivity|].
  inversion F as [|? ? [A B] F']; subst. unfold range_toks at 1. cbn [flat_map app entries].
  destruct ((fst x <? lim) && (snd x <? lim) && (1 <? lim)) eqn:E; [|reflexivity]. rewrite IH; [reflexivity|exact F'|]. intros G. apply N. constructor; [unfold small; lia|exact G].
Qed.
Lemma literal_overflow rt n r : printable rt -> ~ fits16 rt ->
  literal n (mkf None None None) (head_toks w_R16 w_Range16 ++ body_toks rt ++ r) = None.
Proof.
  intros [PC PS PL PR] P16. unfold fits16 in P16. unfold body_toks. destruct n as [|n]; [reflexivity|].
  assert (ER : ranges rt = fst (fst (Output rt)) ++ snd (fst (Output rt))).
  { unfold Output. destruct (switch32 rt >? 0); cbn [fst snd]; [rewrite firstn_skipn|rewrite app_nil_r]; auto. }
  destruct (Output rt) as [[a b] off]. cbn [fst snd] in *. rewrite ER in PR. apply Forall_app in PR. destruct PR as [FA _]. rewrite <- !app_assoc. cbn [literal head_toks app field].
  change (same w_unicode w_unicode) with true. change (same w_R16 w_R16 && same w_Range16 w_Range16) with true. cbv iota. cbn [negb f16 f32 flat].
  rewrite entries_overflow; auto. lia.
Qed.
Lemma small_dec lim x : {small lim x} + {~ small lim x}.
Proof. unfold small. destruct (Z_le_dec 0 (fst x)), (Z_lt_dec (fst x) lim), (Z_le_dec 0 (snd x)), (Z_lt_dec (snd x) lim); try (left; lia); right; lia. Qed.
Lemma fits16_dec rt : {fits16 rt} + {~ fits16 rt}.
Proof. apply Forall_dec. apply small_dec. Qed.
Lemma decls_overflow r : forall tabs n, Forall (fun x => ident (fst x) /\ printable (snd x)) tabs -> ~ Forall (fun x => fits16 (snd x)) tabs ->
  let ts := flat_map (fun x => table_toks (fst x) (snd x)) tabs ++ r in (length ts < n)%nat -> decls n ts = None.
Proof.
  induction tabs as [|[k rt] t IH]; intros n FT NF ts N; subst ts; [exfalso; apply NF; constructor|]. inversion FT as [|? ? (A & P) F']; subst. cbn [fst snd] in *. cbn [flat_map] in *.
  rewrite <- app_assoc in *. rewrite app_length in N. pose proof (table_toks_length k rt) as TL.
  destruct n as [|n]; [reflexivity|]. cbn [fst snd] in *. unfold table_toks at 1. rewrite <- !app_assoc. cbn [app decls].
  rewrite (name_under k A). change (same w_var w_var) with true. change (same w_unicode w_unicode) with true. change (same w_RangeTable w_RangeTable) with true. cbn [andb].
  destruct (fits16_dec rt) as [G|G].
  - match goal with |- context [literal n _ (head_toks _ _ ++ _ ++ ?s)] => rewrite (literal_table rt n s P G) by lia end.
    rewrite IH; [reflexivity|exact F'| |lia]. intros H. apply NF. constructor; assumption.
  - match goal with |- context [literal n _ (head_toks _ _ ++ _ ++ ?s)] => rewrite (literal_overflow rt n s P G) end. reflexivity.
Qed.
Theorem source_overflow pkg tabs vars : nameable pkg tabs vars -> Forall (fun x => printable (snd x)) tabs -> ~ Forall (fun x => fits16 (snd x)) tabs ->
  source (print_file pkg tabs vars) = None.
Proof.
  intros NM FT NF. pose proof NM as [[PI PN] NT NV NS ND NI]. unfold source. rewrite source_tokens by assumption. unfold file_toks. cbn [app].
  rewrite decls_overflow; [|rewrite Forall_forall in *; auto|exact NF|lia]. now destruct (same w_package w_package && name pkg && same w_import w_import && same w_unicode w_unicode).
Qed.

(* ---- what is collected ---- *)
Definition counted (n : Z) (rt : collector) : Prop :=
  0 <= cnt rt <= n /\ 0 <= switch32 rt <= n /\ 0 <= latinOffset rt <= n /\ Forall (small (2 ^ 32)) (ranges rt) /\ small (2 ^ 32) (lo rt, hi rt).
Lemma counted_append n rt x : counted n rt -> small (2 ^ 32) x -> counted (n + 1) (Append rt (fst x) (snd x)).
Proof.
  intros (A & B & C & D & E) X. unfold Append, counted. unfold small in E, X. cbn [fst snd] in *. destruct (fst x =? hi rt + 1); cbn [cnt switch32 latinOffset ranges lo hi].
  - repeat (split; [first [lia|assumption]|]). unfold small. cbn [fst snd]. lia.
  - repeat split; try lia; try (destruct (_ && _); lia); cbn [fst snd]; try lia. apply Forall_app. split; [exact D|]. constructor; [unfold small; cbn [fst snd]; lia|constructor].
Qed.
Lemma collect_counted rs : Forall (small (2 ^ 32)) rs -> counted (zlen rs) (collect rs).
Proof.
  intros F. unfold collect. assert (G : counted 0 new_collector). { unfold counted, small. cbn. repeat split; try lia. constructor. }
  revert G F. generalize new_collector. replace (zlen rs) with (0 + zlen rs) by lia. generalize 0 as n. induction rs as [|x t IH]; intros n rt G F; cbn [fold_left].
  - change (zlen []) with 0. rewrite Z.add_0_r. exact G.
  - inversion F; subst. rewrite zlen_cons. replace (n + (zlen t + 1)) with ((n + 1) + zlen t) by lia. apply IH; [apply counted_append|]; assumption.
Qed.
Lemma collect_printable rs : Forall (small (2 ^ 32)) rs -> zlen rs < 2 ^ 63 -> printable (collect rs).
Proof. intros F L. destruct (collect_counted rs F) as (A & B & C & D & E). constructor; auto; lia. Qed.
Lemma sorted_small m : forall rs k, -1 <= k -> sorted_from k rs -> (forall x, In x rs -> snd x < m) -> Forall (small m) rs /\ (rs <> [] -> zlen rs <= m - k).
Proof.
  induction rs as [|[l r] t IH]; intros k K S M; [split; [constructor|congruence]|]. destruct S as (S1 & S2 & S3). pose proof (M (l, r) (or_introl eq_refl)) as R. cbn [snd] in R.
  destruct (IH r) as [F L]; [lia|exact S3|intros; apply M; right; assumption|]. split; [constructor; [unfold small; cbn; lia|exact F]|]. intros _. rewrite zlen_cons. destruct t as [|y u]; [change (zlen []) with 0; lia|].
  specialize (L ltac:(discriminate)). lia.
Qed.
Lemma sorted_printable rs : sorted_from 1 rs -> (forall x, In x rs -> snd x < 2 ^ 31) -> printable (collect rs).
Proof.
  intros S M. destruct (sorted_small (2 ^ 31) rs 1 ltac:(lia) S M) as [F L]. apply collect_printable.
  - revert F. apply Forall_impl. intros x [A B]. unfold small. lia.
  - destruct rs as [|x t]; [cbn; lia|]. specialize (L ltac:(discriminate)). lia.
Qed.
Lemma sorted_fits rs : sorted_from 1 rs -> off_10000 rs -> (forall x, In x rs -> snd x < 2 ^ 31) -> fits16 (collect rs).
Proof.
  intros S O M. destruct (table_legal rs S O M) as [LG _]. pose proof (sorted_printable rs S M) as [_ _ _ PR]. unfold fits16. pose proof (l_16max _ LG) as B.
  pose proof (output_ranges (collect rs)) as OR. unfold table_of in *. destruct (Output (collect rs)) as [[a b] off]. cbn [R16 fst] in *. rewrite <- OR in PR. apply Forall_app in PR. destruct PR as [PA _].
  pose proof (l_16 _ LG) as OD. cbn [R16] in OD. revert B PA OD. clear. generalize (-1). induction a as [|x t IH]; intros k B PA OD; [constructor|].
  cbn [map with_stride ordered] in *. inversion B as [|? ? B1 B2]; subst. inversion PA as [|? ? P1 P2]; subst. unfold small in *. cbn [fst snd] in *. destruct x as [l h]. cbn [fst snd] in *.
  destruct OD as (O1 & O2 & O3 & O4).
  change (h <= 65535) in B1. constructor; [unfold small; cbn [fst snd]; lia|]. apply (IH h); tauto.
Qed.
