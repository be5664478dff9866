(* GeneratorFileProofs.v -- the generators on well-formed files; the function String. *)
From Coq Require Import String List ZArith Lia Bool Permutation.
From Verif Require Import Base LineBuf UcdSpec UcdParse UcdParseProofs UcdItemProofs UcdFileProofs UcdGenProofs Generator GoSource GeneratorProofs.
Import ListNotations.
Open Scope Z_scope.

(* ---- loading ---- *)
Fixpoint add_all (tbl : list (list Z * list Z)) (ps : list token) : res (list (list Z * list Z)) :=
  match ps with [] => Ok tbl | p :: t => let* tbl := add_token tbl p in add_all tbl t end.
Lemma load_tokens isNd n : forall m sc acc out e, parse_loop isNd m n sc acc = Ok (out, e) ->
  exists ps, out = acc ++ ps /\ forall tbl, exists sc', Error (Tok sc') = NoErr /\ load_loop isNd m n sc tbl = let* tbl := add_all tbl ps in Ok (tbl, sc').
Proof.
  induction m as [|m IH]; intros sc acc out e; cbn [parse_loop load_loop]; [discriminate|].
  destruct (Next isNd n sc) as [[ok sc']| |] eqn:NX; cbn [rbind]; try discriminate. destruct ok.
  - intros E. destruct (IH _ _ _ _ E) as (ps & -> & L). exists (Tok sc' :: ps). split; [now rewrite <- app_assoc|]. intros tbl. cbn [add_all].
    destruct (add_token tbl (Tok sc')) as [tbl'| |]; cbn [rbind]; [apply L| |].
    + destruct (L []) as (sc1 & E1 & _). exists sc1. auto.
    + destruct (L []) as (sc1 & E1 & _). exists sc1. auto.
  - intros E. injection E as -> _. exists []. split; [now rewrite app_nil_r|]. intros tbl. exists sc'. split; [|reflexivity].
    unfold Next in NX. destruct (IsEof (Buf sc)) as [ended| |]; cbn [rbind] in NX; try discriminate. destruct ended.
    + injection NX as <-. reflexivity.
    + destruct (chain _ _ _ _); cbn [rbind] in NX; discriminate.
Qed.
Lemma load_parse isNd n input ps e : Parse isNd n input = Ok (ps, e) -> load isNd n input = let* tbl := add_all [] ps in Ok (tbl, NoErr).
Proof.
  unfold Parse, load. destruct (New n input) as [sc| |]; cbn [rbind]; try discriminate. intros P.
  destruct (load_tokens isNd n n sc [] ps e P) as (ps' & -> & L). destruct (L []) as (sc' & E & ->). cbn [app]. destruct (add_all [] ps'); cbn [rbind]; auto. now rewrite E.
Qed.
(* the error behind the loop is that of the end token: none *)
Lemma load_loop_err isNd n : forall m sc tbl out sc', load_loop isNd m n sc tbl = Ok (out, sc') -> Error (Tok sc') = NoErr.
Proof.
  induction m as [|m IH]; intros sc tbl out sc'; cbn [load_loop]; [discriminate|].
  destruct (Next isNd n sc) as [[ok sc1]| |] eqn:NX; cbn [rbind]; try discriminate. destruct ok.
  - destruct (add_token tbl (Tok sc1)); cbn [rbind]; try discriminate. apply IH.
  - intros E. injection E as _ <-. unfold Next in NX. destruct (IsEof (Buf sc)) as [ended| |]; cbn [rbind] in NX; try discriminate. destruct ended.
    + injection NX as <-. reflexivity.
    + destruct (chain _ _ _ _); cbn [rbind] in NX; discriminate.
Qed.
Lemma load_err isNd n input tbl e : load isNd n input = Ok (tbl, e) -> e = NoErr.
Proof.
  unfold load. destruct (New n input); cbn [rbind]; try discriminate. destruct (load_loop isNd n n a []) as [[t sc]| |] eqn:L; cbn [rbind]; try discriminate.
  intros E. injection E as _ <-. eapply load_loop_err; eauto.
Qed.

(* the class an item gives, as the generators read it: its first field, without the blanks at the end of the line *)
Definition class_field (it : item) : list Z := hd [] (rstrip_last (it_fields it)).
Definition in_class (key : list Z) (it : item) : bool := if list_eq_dec Z.eq_dec (class_field it) key then true else false.
Definition points (it : item) : list Z := upto (fst (item_range it)) (snd (item_range it)).
Definition listing (key : list Z) (its : list item) : list Z := concat (map points (filter (in_class key) its)).
Lemma in_upto c l r : In c (upto l r) <-> l <= c <= r.
Proof.
  unfold upto. rewrite in_map_iff. split.
  - intros (i & <- & I). apply in_seq in I. lia.
  - intros H. exists (Z.to_nat (c - l)). split; [lia|]. apply in_seq. lia.
Qed.
Lemma in_listing c key its : In c (listing key its) <-> exists it, In it its /\ class_field it = key /\ fst (item_range it) <= c <= snd (item_range it).
Proof.
  unfold listing. rewrite in_concat. split.
  - intros (l & L & C). apply in_map_iff in L. destruct L as (it & <- & F). apply filter_In in F. destruct F as [I K]. exists it. split; auto.
    unfold in_class in K. destruct (list_eq_dec _ _ _); [|discriminate]. split; auto. now apply in_upto.
  - intros (it & I & K & C). exists (points it). split; [|now apply in_upto]. apply in_map_iff. exists it. split; auto. apply filter_In. split; auto.
    unfold in_class. now destruct (list_eq_dec _ _ _).
Qed.
Lemma value_put tbl k rs x : value (put tbl k rs) x = if list_eqb k x then Some (match value tbl k with Some l => l | None => [] end ++ rs) else value tbl x.
Proof.
  induction tbl as [|[c l] t IH]; cbn [put value].
  - change eqb_list with list_eqb. now destruct (list_eqb k x).
  - change eqb_list with list_eqb. destruct (list_eqb c k) eqn:E.
    + apply list_eqb_spec in E. subst c. cbn [value]. change eqb_list with list_eqb. now destruct (list_eqb k x).
    + cbn [value]. change eqb_list with list_eqb. destruct (list_eqb c x) eqn:E2.
      * apply list_eqb_spec in E2. subst c. destruct (list_eqb k x) eqn:E3; auto. apply list_eqb_spec in E3. subst k.
        assert (list_eqb x x = true) by now apply list_eqb_spec. congruence.
      * exact IH.
Qed.
Lemma put_keys tbl k rs x : In x (map fst (put tbl k rs)) <-> x = k \/ In x (map fst tbl).
Proof.
  induction tbl as [|[c l] t IH]; cbn [put map In fst]; [intuition congruence|]. destruct (list_eqb c k) eqn:E.
  - apply list_eqb_spec in E. subst c. cbn [map In fst]. intuition congruence.
  - cbn [map In fst]. rewrite IH. intuition.
Qed.
Lemma put_nodup tbl k rs : NoDup (map fst tbl) -> NoDup (map fst (put tbl k rs)).
Proof.
  induction tbl as [|[c l] t IH]; cbn [put map fst]; [intros _; constructor; [auto|constructor]|]. intros N. inversion N as [|? ? NI NT]; subst.
  destruct (list_eqb c k) eqn:E; cbn [map fst]; constructor; auto. rewrite put_keys. intros [->|]; [|contradiction].
  assert (list_eqb k k = true) by now apply list_eqb_spec. congruence.
Qed.

Definition table (first : list item) (tbl : list (list Z * list Z)) : Prop :=
  NoDup (map fst tbl) /\ (forall key, In key (map fst tbl) <-> key = [] \/ exists it, In it first /\ class_field it = key) /\
  forall key, value tbl key = if list_eqb [] key then Some (0 :: listing [] first) else if existsb (in_class key) first then Some (listing key first) else None.
Lemma listing_snoc key its it : listing key (its ++ [it]) = listing key its ++ if in_class key it then points it else [].
Proof. unfold listing. rewrite filter_app, map_app, concat_app. cbn [filter]. destruct (in_class key it); cbn; now rewrite ?app_nil_r. Qed.
Lemma existsb_snoc (p : item -> bool) its it : existsb p (its ++ [it]) = existsb p its || p it.
Proof. rewrite existsb_app. cbn. now rewrite orb_false_r. Qed.
Lemma in_class_eqb key it : in_class key it = list_eqb (class_field it) key.
Proof. unfold in_class. rewrite list_eqb_dec. reflexivity. Qed.
Lemma listing_none key its : existsb (in_class key) its = false -> listing key its = [].
Proof.
  unfold listing. induction its as [|it t IH]; cbn; auto. intros E. apply orb_false_iff in E. destruct E as [-> E]. auto.
Qed.
Lemma add_items : forall ps its first tbl, Forall2 denotes its ps -> Forall (fun x => snd (item_range (snd x)) < 2 ^ 31 - 1) its -> table first tbl ->
  exists tbl', add_all tbl ps = Ok tbl' /\ table (first ++ map snd its) tbl'.
Proof.
  induction ps as [|p ps IH]; intros its first tbl D B T; inversion D as [|x y its' ps' DX DR]; subst; cbn [add_all map].
  - exists tbl. rewrite app_nil_r. auto.
  - inversion B as [|? ? BX BR]; subst. destruct x as [ln it]. cbn [snd] in *. destruct DX as (_ & _ & _ & _ & R & _ & _ & FX).
    fold (item_range it) in R. unfold add_token. rewrite R. unfold item_range at 1. rewrite Field_ok by lia. cbn [rbind]. change (Z.to_nat (1 - 1)) with 0%nat. rewrite FX.
    replace (match it_to it with Some v => v | None => it_from it end) with (snd (item_range it)) by reflexivity.
    replace (it_from it) with (fst (item_range it)) at 1 by reflexivity. fold (points it).
    destruct (Z.eqb_spec (snd (item_range it)) (2 ^ 31 - 1)); [lia|]. cbn [rbind].
    replace (nth 0 (rstrip_last (it_fields it)) []) with (class_field it) by (unfold class_field; now destruct (rstrip_last (it_fields it))).
    destruct T as (N & K & V).
    destruct (IH its' (first ++ [it]) (put tbl (class_field it) (points it)) DR BR) as (tbl' & E & T').
    2:{ exists tbl'. split; [exact E|]. now rewrite <- app_assoc in T'. }
    split; [now apply put_nodup|]. split.
    + intros key. rewrite put_keys, K. split.
      * intros [->|[->|(it' & I & C)]]; [right; exists it; rewrite in_app_iff; cbn; auto|auto|right; exists it'; rewrite in_app_iff; auto].
      * intros [->|(it' & I & C)]; [auto|]. apply in_app_iff in I. destruct I as [I|[->|[]]]; [right; right; eauto|auto].
    + intros key. rewrite value_put, !V, !listing_snoc, !existsb_snoc, !in_class_eqb.
      destruct (list_eqb (class_field it) key) eqn:CK.
      * apply list_eqb_spec in CK. subst key. rewrite orb_true_r. destruct (list_eqb [] (class_field it)) eqn:E0.
        -- apply list_eqb_spec in E0. rewrite <- E0. reflexivity.
        -- destruct (existsb (in_class (class_field it)) first) eqn:EX; [reflexivity|]. now rewrite (listing_none _ _ EX).
      * rewrite orb_false_r, app_nil_r. destruct (list_eqb [] key) eqn:E0; [|reflexivity]. apply list_eqb_spec in E0. subst key.
        rewrite CK. now rewrite app_nil_r.
Qed.
Lemma table_start : table [] [([], [0])].
Proof.
  split; [repeat constructor; auto|]. split.
  - intros key. cbn. split; [intros [<-|[]]; auto|intros [->|(it & [] & _)]; auto].
  - intros key. cbn [value]. change eqb_list with list_eqb. now destruct (list_eqb [] key).
Qed.
(* the table of a well-formed file *)
Theorem load_ok isNd n file sizes ls its : short_lines file -> lines_of file ls -> contents 1 ls its -> (length file + 3 <= n)%nat ->
  Forall (fun x => snd (item_range (snd x)) < 2 ^ 31 - 1) its -> its <> [] ->
  exists tbl, load isNd n (NewScanner file sizes EOF) = Ok (tbl, NoErr) /\ table (map snd its) tbl.
Proof.
  intros SH L C N B NE. destruct (parse_items isNd n file sizes ls its SH L C N) as (ps & E & P). rewrite (load_parse _ _ _ _ _ E).
  destruct its as [|x its]; [congruence|]. destruct P as (doc & ps' & -> & _ & FD & RD & D). cbn [add_all]. unfold add_token at 1. rewrite RD, Field_ok, FD by lia. cbn [rbind nth].
  change (Z.to_nat (1 - 1)) with 0%nat. cbn [nth]. change (0 =? 2 ^ 31 - 1) with false. cbn iota. cbn [rbind].
  destruct (add_items ps' (x :: its) [] _ D B table_start) as (tbl & A & T). cbn [put]. change (upto 0 0) with [0]. rewrite A. cbn [rbind]. exists tbl. auto.
Qed.

(* ---- any order of the classes ---- *)
Lemma value_in env x v : NoDup (map fst env) -> In (x, v) env -> value env x = Some v.
Proof.
  induction env as [|[y w] t IH]; [contradiction|]. cbn [map fst value]. intros N I. inversion N as [|? ? NI NT]; subst. destruct I as [E|I].
  - injection E as -> ->. now rewrite eqb_list_refl.
  - destruct (eqb_list y x) eqn:E; [|auto]. apply eqb_list_spec in E. subst y. exfalso. apply NI. apply in_map_iff. exists (x, v). auto.
Qed.
Lemma value_out env x : ~ In x (map fst env) -> value env x = None.
Proof.
  induction env as [|[y w] t IH]; cbn; auto. intros N. destruct (eqb_list y x) eqn:E; [apply eqb_list_spec in E; subst; exfalso; auto|auto].
Qed.
Lemma value_some env x v : value env x = Some v -> In (x, v) env.
Proof. induction env as [|[y w] t IH]; cbn; [discriminate|]. destruct (eqb_list y x) eqn:E; [apply eqb_list_spec in E; subst; intros X; injection X as ->; auto|auto]. Qed.
Theorem program_values g tbl : spec_ok g -> Forall (fun kl => key_ok (fst kl)) tbl -> NoDup (map (fun kl => key_name (fst kl)) tbl) ->
  exists vars places, program (generateRanges g tbl) = Some (setup_name g, (vars, places)) /\
    (forall k l, In (k, l) tbl -> value vars (key_name k) = Some (map fixed l) /\ value places (key_name k ++ bytes "Class") = Some (map fixed l)) /\
    (forall x, ~ In x (map (fun kl => key_name (fst kl)) tbl) -> value vars x = None).
Proof.
  intros OK F N. exists (after tbl), (placed tbl). split; [now apply program_ok|].
  assert (NA : NoDup (map fst (after tbl))). { unfold after. rewrite map_rev, map_map. cbn [fst]. now apply NoDup_rev. }
  assert (NP : NoDup (map fst (placed tbl))).
  { unfold placed. rewrite map_rev, map_map. cbn [fst]. apply NoDup_rev. clear - N. induction tbl as [|kl t IH]; cbn [map] in *; [constructor|].
    inversion N as [|? ? NI NT]; subst. constructor; auto. intros I. apply NI. apply in_map_iff in I. destruct I as (x & E & I). apply app_inv_tail in E.
    apply in_map_iff. exists x. auto. }
  split.
  - intros k l I. split; apply value_in; auto; unfold after, placed; rewrite <- in_rev; apply in_map_iff; exists (k, l); auto.
  - intros x NI. apply value_out. unfold after. rewrite map_rev, map_map. cbn [fst]. now rewrite <- in_rev.
Qed.
(* with the class without name there is no program, in whichever order the map is walked *)
Theorem no_program g its tbl tbl' : spec_ok g -> table its tbl -> Forall (fun it => key_ok (class_field it)) its -> Permutation tbl tbl' ->
  program (generateRanges g tbl') = None.
Proof.
  intros OK (N & K & _) F P. assert (N' : NoDup (map fst tbl')) by (eapply Permutation_NoDup; [apply Permutation_map; exact P|exact N]).
  assert (K' : forall key, In key (map fst tbl') -> key = [] \/ key_ok key).
  { intros key I. apply (Permutation_in key (Permutation_map fst (Permutation_sym P))) in I. apply K in I. destruct I as [->|(it & I & <-)]; auto. right. rewrite Forall_forall in F. auto. }
  assert (I : In [] (map fst tbl')). { apply (Permutation_in [] (Permutation_map fst P)). apply K. auto. }
  apply in_map_iff in I. destruct I as ([k l] & E & I). cbn in E. subst k. apply in_split in I. destruct I as (a & b & ->).
  apply program_no_name; auto. apply Forall_forall. intros [k r] IA. cbn [fst]. destruct (K' k) as [->|]; auto.
  - rewrite map_app, in_app_iff. left. apply in_map_iff. exists (k, r). auto.
  - exfalso. rewrite map_app in N'. cbn [map fst] in N'. apply NoDup_remove_2 in N'. apply N'. rewrite in_app_iff. left. apply in_map_iff. exists ([], r). auto.
Qed.

(* ---- decimal numbers ---- *)
Lemma udigits_digits m : forall v, 0 <= v -> forallb digit (udigits m v) = true.
Proof.
  induction m as [|m IH]; intros v V; [reflexivity|]. cbn [udigits]. rewrite forallb_app. apply andb_true_iff. split.
  - destruct (v <? 10); [reflexivity|]. apply IH. apply Z.div_pos; lia.
  - cbn [forallb]. unfold digit. pose proof (Z.mod_pos_bound v 10 ltac:(lia)). rewrite andb_true_r. apply andb_true_iff. lia.
Qed.
Definition dec (s : list Z) : Z := fold_left (fun v d => v * 10 + (d - 48)) s 0.
Lemma udigits_value m : forall v, 0 <= v < 10 ^ Z.of_nat m -> dec (udigits m v) = v.
Proof.
  induction m as [|m IH]; intros v V; [cbn in *; lia|]. cbn [udigits]. unfold dec. rewrite fold_left_app. cbn [fold_left].
  destruct (Z.ltb_spec v 10).
  - cbn [fold_left]. rewrite Z.mod_small by lia. lia.
  - fold (dec (udigits m (v / 10))). rewrite IH. + pose proof (Z.div_mod v 10 ltac:(lia)). lia.
    + split; [apply Z.div_pos; lia|]. apply Z.div_lt_upper_bound; [lia|]. replace (Z.of_nat (S m)) with (Z.succ (Z.of_nat m)) in V by lia. rewrite Z.pow_succ_r in V by lia. lia.
Qed.
Lemma udigits_cons m v : (0 < m)%nat -> 0 <= v -> exists b t, udigits m v = b :: t /\ digit b = true /\ forallb digit t = true.
Proof.
  intros M V. pose proof (udigits_digits m v V) as D. destruct (udigits m v) as [|b t] eqn:E.
  - destruct m; [lia|]. cbn [udigits] in E. now destruct (if v <? 10 then [] else udigits m (v / 10)).
  - cbn in D. apply andb_true_iff in D. exists b, t. tauto.
Qed.
Lemma digit_other b : digit b = true -> (b =? 10) = false /\ ((b =? 32) || (b =? 9) || (b =? 13)) = false /\ letter b = false.
Proof.
  unfold digit, letter. intros D. apply andb_true_iff in D.
  destruct (Z.eqb_spec b 10), (Z.eqb_spec b 32), (Z.eqb_spec b 9), (Z.eqb_spec b 13), (Z.leb_spec 65 b), (Z.leb_spec b 90), (Z.leb_spec 97 b), (Z.leb_spec b 122), (Z.eqb_spec b 95); cbn; try lia; auto.
Qed.
Local Opaque udigits.
Lemma lex_number last v c rest : 0 <= v < 10 ^ 20 -> digit c = false -> tokens last (itoa v ++ c :: rest) = option_map (app [Num v]) (tokens true (c :: rest)).
Proof.
  intros V C. unfold itoa. destruct (Z.ltb_spec v 0); [lia|]. destruct (udigits_cons 20 v ltac:(lia) ltac:(lia)) as (b & t & E & B & T).
  pose proof (udigits_value 20 v ltac:(lia)) as D. rewrite E in *. apply tokens_step. cbn [app]. unfold lex1. destruct (digit_other b B) as (-> & -> & ->). rewrite B.
  rewrite (span_all _ t c rest T C). unfold dec in D. now rewrite D.
Qed.
Lemma itoa_inj a b : - 10 ^ 20 < a < 10 ^ 20 -> - 10 ^ 20 < b < 10 ^ 20 -> itoa a = itoa b -> a = b.
Proof.
  intros A B. unfold itoa. destruct (Z.ltb_spec a 0), (Z.ltb_spec b 0).
  - intros E. apply (f_equal (fun s => dec (tl s))) in E. cbn [tl] in E. rewrite !udigits_value in E by (change (Z.of_nat 20) with 20; lia). lia.
  - intros E. destruct (udigits_cons 20 b ltac:(lia) ltac:(lia)) as (x & t & EB & X & _). rewrite EB in E. assert (x = 45) by congruence. subst x. discriminate.
  - intros E. destruct (udigits_cons 20 a ltac:(lia) ltac:(lia)) as (x & t & EA & X & _). rewrite EA in E. assert (x = 45) by congruence. subst x. discriminate.
  - intros E. apply (f_equal dec) in E. rewrite !udigits_value in E by (change (Z.of_nat 20) with 20; lia). lia.
Qed.

(* ---- the array of start indices ---- *)
Lemma starts_bound names : forall total, Forall (fun v => total < v <= total + zlen (all_names names)) (starts total names).
Proof.
  induction names as [|s t IH]; intros total; cbn [starts]; constructor.
  - unfold all_names. cbn [map concat]. rewrite !zlen_app. change (zlen (bytes "Class")) with 5. pose proof (zlen_nonneg s). pose proof (zlen_nonneg (concat (map (fun s0 => s0 ++ bytes "Class") t))). lia.
  - eapply Forall_impl; [|apply IH]. cbv beta. intros v. unfold all_names. cbn [map concat]. rewrite !zlen_app. change (zlen (bytes "Class")) with 5. pose proof (zlen_nonneg s). lia.
Qed.
Lemma lex_starts a b names : forall total out rest last, 0 <= total -> total + zlen (all_names names) < 10 ^ 20 ->
  exists s, startinxs a b out total names = out ++ s /\ match s with [] => True | c :: _ => digit c = false end /\
    tokens last (s ++ [32] ++ rest) = option_map (app (flat_map (fun v => [Sym 44; Num v]) (starts total names))) (tokens (match names with [] => last | _ => true end) ([32] ++ rest)).
Proof.
  induction names as [|x t IH]; intros total out rest last T B; cbn [startinxs starts flat_map].
  - exists []. rewrite app_nil_r. split; auto. split; auto. now rewrite map_app0.
  - unfold all_names in B. cbn [map concat] in B. rewrite !zlen_app in B. change (zlen (bytes "Class")) with 5 in B. fold (all_names t) in B. pose proof (zlen_nonneg x). pose proof (zlen_nonneg (all_names t)).
    set (sep := if b <? (a + zlen out) mod 80 then [44; 10; 32; 32; 32; 32] else [44; 32]).
    destruct (IH (total + zlen x + 5) (out ++ sep ++ itoa (total + zlen x + 5)) rest true ltac:(lia) ltac:(lia)) as (s & -> & H44 & L).
    exists (sep ++ itoa (total + zlen x + 5) ++ s). split; [now rewrite <- !app_assoc|]. split; [unfold sep; now destruct (b <? _)|].
    rewrite <- !app_assoc.
    assert (S1 : forall r, tokens last (sep ++ r) = option_map (app [Sym 44]) (tokens false r)).
    { intros r. unfold sep. destruct (b <? _); cbn [app]; repeat (erewrite tokens_step by reflexivity; rewrite ?map_app2); reflexivity. }
    rewrite S1. clear S1.
    assert (S2 : exists c r, s ++ [32] ++ rest = c :: r /\ digit c = false) by (destruct s as [|c s']; [exists 32, rest; auto|exists c, (s' ++ [32] ++ rest); auto]).
    destruct S2 as (c & r & E & C). rewrite E in *. rewrite lex_number by (auto; lia). rewrite L, !map_app2. replace (match t with [] => true | _ => true end) with true by now destruct t. reflexivity.
Qed.

(* ---- String ---- *)
Lemma all_names_cons s t : zlen (all_names (s :: t)) = zlen s + 5 + zlen (all_names t).
Proof. unfold all_names. cbn [map concat]. rewrite !zlen_app. change (zlen (bytes "Class")) with 5. lia. Qed.
Lemma starts_nth a : forall t b, nth_error (t :: starts t (a ++ b)) (length a) = Some (t + zlen (all_names a)).
Proof.
  induction a as [|s a IH]; intros t b.
  - cbn. f_equal. unfold all_names. cbn. lia.
  - cbn [app starts length nth_error]. rewrite IH, all_names_cons. f_equal. lia.
Qed.
Lemma starts_length t names : length (starts t names) = length names.
Proof. revert t. induction names; intros t; cbn; auto. Qed.
Lemma starts_get a b t : zget (t :: starts t (a ++ b)) (zlen a) = Some (t + zlen (all_names a)).
Proof.
  unfold zget. pose proof (zlen_nonneg a). rewrite zlen_cons. unfold zlen at 3. rewrite starts_length, app_length.
  destruct (Z.leb_spec 0 (zlen a)); [|lia]. destruct (Z.ltb_spec (zlen a) (Z.of_nat (length a + length b) + 1)); [|unfold zlen in *; lia]. cbn [andb].
  unfold zlen at 1. rewrite Nat2Z.id. apply starts_nth.
Qed.
Lemma slice_mid {A} (a b c : list A) : zslice (a ++ b ++ c) (zlen a) (zlen a + zlen b) = Some b.
Proof.
  unfold zslice. rewrite !zlen_app. pose proof (zlen_nonneg a). pose proof (zlen_nonneg b). pose proof (zlen_nonneg c).
  destruct (Z.leb_spec 0 (zlen a)), (Z.leb_spec (zlen a) (zlen a + zlen b)), (Z.leb_spec (zlen a + zlen b) (zlen a + (zlen b + zlen c))); try lia. cbn [andb].
  replace (Z.to_nat (zlen a + zlen b - zlen a)) with (length b) by (unfold zlen; lia). replace (Z.to_nat (zlen a)) with (length a) by (unfold zlen; lia).
  rewrite skipn_app, skipn_all, Nat.sub_diag. cbn [app skipn]. rewrite firstn_app, firstn_all, Nat.sub_diag. cbn [firstn]. now rewrite app_nil_r.
Qed.
Theorem String_ok type pseudo names a s b : names = a ++ s :: b -> (forall p, In p pseudo -> fst p <> zlen a) ->
  String_ type pseudo (all_names names) (0 :: starts 0 names) (zlen a) = Ok (s ++ bytes "Class").
Proof.
  intros E P. unfold String_.
  replace (find (fun p => zlen a =? fst p) pseudo) with (@None (Z * list Z)).
  2:{ symmetry. destruct (find _ pseudo) as [p|] eqn:F; auto. apply find_some in F. destruct F as [I EQ]. apply Z.eqb_eq in EQ. exfalso. apply (P p I). auto. }
  pose proof (zlen_nonneg a). pose proof (zlen_nonneg b). rewrite zlen_cons. unfold zlen at 2. rewrite starts_length. rewrite E at 1. rewrite app_length. cbn [length].
  destruct (Z.ltb_spec (zlen a) 0); [lia|]. destruct (Z.leb_spec (Z.of_nat (length a + S (length b)) + 1 - 1) (zlen a)); [unfold zlen in *; lia|]. cbn [orb].
  rewrite E. rewrite starts_get. cbn [lift rbind].
  replace (zlen a + 1) with (zlen (a ++ [s])) by (rewrite zlen_app; reflexivity).
  replace (a ++ s :: b) with ((a ++ [s]) ++ b) by (now rewrite <- app_assoc). rewrite starts_get. cbn [lift rbind]. rewrite !Z.add_0_l.
  assert (AN : all_names (a ++ [s]) = all_names a ++ (s ++ bytes "Class")). { unfold all_names. rewrite map_app, concat_app. cbn. now rewrite !app_nil_r. }
  rewrite AN. rewrite zlen_app. rewrite <- (app_assoc a). cbn [app].
  replace (all_names (a ++ s :: b)) with (all_names a ++ (s ++ bytes "Class") ++ all_names b) by (unfold all_names; rewrite map_app, concat_app; reflexivity).
  now rewrite slice_mid.
Qed.
(* classes without a name *)
Lemma String_other type pseudo names c : (forall p, In p pseudo -> fst p <> c) -> c < 0 \/ zlen names <= c ->
  String_ type pseudo (all_names names) (0 :: starts 0 names) c = Ok (type ++ bytes "(" ++ itoa c ++ bytes ")").
Proof.
  intros P C. unfold String_. replace (find (fun p => c =? fst p) pseudo) with (@None (Z * list Z)).
  2:{ symmetry. destruct (find _ pseudo) as [p|] eqn:F; auto. apply find_some in F. destruct F as [I EQ]. apply Z.eqb_eq in EQ. exfalso. apply (P p I). auto. }
  rewrite zlen_cons. unfold zlen at 1. rewrite starts_length. fold (zlen names). destruct (Z.ltb_spec c 0), (Z.leb_spec (zlen names + 1 - 1) c); try lia; reflexivity.
Qed.

(* different classes have different names: the classes with names are checked one by one *)
Definition String_of (type : list Z) (pseudo : list (Z * list Z)) (names : list (list Z)) (c : Z) : res (list Z) := String_ type pseudo (all_names names) (0 :: starts 0 names) c.
Definition named (pseudo : list (Z * list Z)) (names : list (list Z)) : list Z := upto 0 (zlen names - 1) ++ map fst pseudo.
Definition res_eqb (a b : res (list Z)) : bool := match a, b with Ok x, Ok y => list_eqb x y | _, _ => false end.
Definition starts_with (p : list Z) (r : res (list Z)) : bool := match r with Ok x => list_eqb p (firstn (length p) x) | _ => true end.
Definition names_differ (type : list Z) (pseudo : list (Z * list Z)) (names : list (list Z)) : bool :=
  forallb (fun c => negb (starts_with (type ++ bytes "(") (String_of type pseudo names c)) &&
    forallb (fun d => (c =? d) || negb (res_eqb (String_of type pseudo names c) (String_of type pseudo names d))) (named pseudo names)) (named pseudo names).
Theorem String_inj type pseudo names : names_differ type pseudo names = true -> forall c d, - 2 ^ 63 <= c < 2 ^ 63 -> - 2 ^ 63 <= d < 2 ^ 63 ->
  String_of type pseudo names c = String_of type pseudo names d -> c = d.
Proof.
  intros ND c d C D E. unfold names_differ in ND. rewrite forallb_forall in ND.
  assert (DEC : forall x, In x (named pseudo names) \/ String_of type pseudo names x = Ok (type ++ bytes "(" ++ itoa x ++ bytes ")")).
  { intros x. destruct (in_dec Z.eq_dec x (named pseudo names)) as [I|N]; auto. right. unfold named in N. rewrite in_app_iff in N. apply String_other.
    - intros p I EQ. apply N. right. apply in_map_iff. exists p. auto.
    - assert (~ In x (upto 0 (zlen names - 1))) as U by auto. rewrite in_upto in U. lia. }
  assert (PRE : forall x y, In x (named pseudo names) -> String_of type pseudo names x = Ok (type ++ bytes "(" ++ itoa y ++ bytes ")") -> False).
  { intros x y I S. specialize (ND x I). rewrite S in ND. apply andb_true_iff in ND. destruct ND as [ND _]. cbn [starts_with] in ND.
    rewrite app_assoc in ND. rewrite firstn_app, firstn_all, Nat.sub_diag in ND. cbn [firstn] in ND. rewrite app_nil_r in ND.
    assert (list_eqb (type ++ bytes "(") (type ++ bytes "(") = true) as R by now apply list_eqb_spec. rewrite R in ND. discriminate. }
  destruct (DEC c) as [IC|EC], (DEC d) as [ID|ED].
  - specialize (ND c IC). apply andb_true_iff in ND. destruct ND as [NS ND]. rewrite forallb_forall in ND. specialize (ND d ID). rewrite E in ND.
    apply orb_true_iff in ND. destruct ND as [ND|ND]; [now apply Z.eqb_eq|]. rewrite E in NS. destruct (String_of type pseudo names d); try discriminate.
    cbn [res_eqb] in ND. assert (list_eqb a a = true) as R by now apply list_eqb_spec. rewrite R in ND. discriminate.
  - exfalso. rewrite ED in E. eapply PRE; eauto.
  - exfalso. rewrite EC in E. symmetry in E. eapply PRE; eauto.
  - rewrite EC, ED in E. assert (E2 : type ++ bytes "(" ++ itoa c ++ bytes ")" = type ++ bytes "(" ++ itoa d ++ bytes ")") by congruence.
    apply app_inv_head in E2. apply app_inv_head in E2. apply app_inv_tail in E2. apply itoa_inj; auto; lia.
Qed.

(* ---- the constants ---- *)
Fixpoint const_toks (g : spec) (i : Z) (names : list (list Z)) : list tok :=
  match names with [] => [] | s :: t => [Id (s ++ bytes "Class"); Id (g_type g); Sym 61; Num i; Semi] ++ const_toks g (i + 1) t end.
Lemma eats_consts g : spec_ok g -> forall names i, Forall ident names -> 0 <= i -> i + zlen names < 10 ^ 20 -> eats false (print_consts g i names) (const_toks g i names) false.
Proof.
  intros OK. induction names as [|s t IH]; intros i F I B; [apply eats_nil|]. inversion F; subst. cbn [print_consts const_toks]. rewrite zlen_cons in B. pose proof (zlen_nonneg t).
  change (bytes "Class ") with (bytes "Class" ++ [32]). change (bytes " = ") with ([32] ++ bytes "= "). change newline with [10].
  replace (bytes "    " ++ s ++ (bytes "Class" ++ [32]) ++ g_type g ++ ([32] ++ bytes "= ") ++ itoa i ++ [10] ++ print_consts g (i + 1) t)
    with (bytes "    " ++ ((s ++ bytes "Class") ++ [32]) ++ (g_type g ++ [32]) ++ bytes "= " ++ (itoa i ++ [10]) ++ print_consts g (i + 1) t) by (rewrite <- !app_assoc; reflexivity).
  change ([Id (s ++ bytes "Class"); Id (g_type g); Sym 61; Num i; Semi] ++ const_toks g (i + 1) t)
    with ([] ++ [Id (s ++ bytes "Class")] ++ [Id (g_type g)] ++ [Sym 61] ++ [Num i; Semi] ++ const_toks g (i + 1) t).
  eapply eats_app; [apply eats_blank; repeat constructor|].
  eapply eats_app; [apply (eats_ident _ _ _ [] true); auto; apply ident_app; [auto|reflexivity]|].
  eapply eats_app; [apply (eats_ident _ _ _ [] true); auto; apply (ok_type g OK)|].
  eapply (eats_app _ _ _ false). { intros rest. lit. cbn [app]. repeat (erewrite tokens_step by reflexivity; rewrite ?map_app2). reflexivity. }
  eapply (eats_app _ _ _ false).
  { intros rest. rewrite <- app_assoc. cbn [app]. rewrite lex_number by (auto; lia). erewrite tokens_step by reflexivity. rewrite map_app2. reflexivity. }
  apply IH; auto; lia.
Qed.
