(* UcdExactGen.v -- the three generators on every file: what they make of the tokens of UcdExact.v. *)
From Coq Require Import List ZArith Lia Bool.
From Verif Require Import Base RuneWrite Segmenter Utf8 LineBuf Ucd UcdSpec LineBufProofs UcdParse UcdParseProofs UcdItemProofs UcdFileProofs UcdGenProofs
  UcdExact GoSource Generator GeneratorProofs GeneratorFileProofs.
Import ListNotations.
Open Scope Z_scope.

(* ---- tablegen ---- *)
(* The category of a token: its field number f (the code points are number 1). *)
Definition tok_cat (f : nat) (t : token) : list Z := TrimSpace (nth (f - 2) (Fields t) []).
Definition tok_ranges (f : nat) (cat : list Z) (ts : list token) : list (Z * Z) := map Range (filter (fun t => list_eqb (tok_cat f t) cat) ts).
Definition tok_table (prefix : list Z) (f : nat) (ts : list token) (tbl : list (list Z * collector)) : Prop :=
  NoDup (map fst tbl) /\ (forall k, In k (map fst tbl) -> exists cat, cat <> [] /\ k = cat_name prefix cat) /\
  forall cat, cat <> [] -> lookup tbl (cat_name prefix cat) = match tok_ranges f cat ts with [] => None | rs => Some (collect rs) end.

Lemma tg_append_keys tbl cat l r k : In k (map fst (tg_append tbl cat l r)) <-> k = cat \/ In k (map fst tbl).
Proof.
  induction tbl as [|[c rt] t IH]; cbn [tg_append map fst]; [cbn; intuition congruence|]. destruct (list_eqb c cat) eqn:E; cbn [map fst].
  - apply list_eqb_spec in E. subst c. cbn. intuition congruence.
  - cbn. rewrite IH. intuition congruence.
Qed.
Lemma tg_append_nodup tbl cat l r : NoDup (map fst tbl) -> NoDup (map fst (tg_append tbl cat l r)).
Proof.
  induction tbl as [|[c rt] t IH]; cbn [tg_append map fst]; intros N; [repeat constructor; intros []|]. destruct (list_eqb c cat) eqn:E; cbn [map fst]; [exact N|].
  inversion N as [|x y NI ND]; subst. constructor; [|auto]. rewrite tg_append_keys. intros [->|I]; [|auto]. assert (list_eqb cat cat = true) by now apply list_eqb_spec. congruence.
Qed.
Lemma tok_ranges_snoc f cat ts t : tok_ranges f cat (ts ++ [t]) = tok_ranges f cat ts ++ if list_eqb (tok_cat f t) cat then [Range t] else [].
Proof. unfold tok_ranges. rewrite filter_app, map_app. cbn. now destruct (list_eqb (tok_cat f t) cat). Qed.
Lemma lookup_empty prefix f : tok_table prefix f [] [].
Proof. split; [constructor|]. split; [intros k []|]. intros cat _. reflexivity. Qed.
Lemma tg_any prefix f : (2 <= f)%nat -> forall ts done tbl, tok_table prefix f done tbl ->
  exists tbl', tg_collect prefix (Z.of_nat f - 1) tbl ts = Ok tbl' /\ tok_table prefix f (done ++ ts) tbl'.
Proof.
  intros F. induction ts as [|t ts IH]; intros done tbl T; cbn [tg_collect]; [exists tbl; now rewrite app_nil_r|].
  unfold tg_callback. rewrite Field_ok by lia. replace (Z.to_nat (Z.of_nat f - 1 - 1)) with (f - 2)%nat by lia. destruct (Range t) as [l r] eqn:R. cbn [rbind]. fold (tok_cat f t).
  assert (STEP : exists tbl1, (match tok_cat f t with [] => Ok tbl | c => Ok (tg_append tbl (cat_name prefix c) l r) end) = Ok tbl1 /\ tok_table prefix f (done ++ [t]) tbl1).
  { destruct T as (ND & K & V). destruct (tok_cat f t) as [|c0 cs] eqn:C.
    - exists tbl. split; [reflexivity|]. split; [exact ND|]. split; [exact K|]. intros cat NE. rewrite tok_ranges_snoc, C. destruct cat as [|x cat]; [congruence|]. cbn [list_eqb]. rewrite app_nil_r. auto.
    - eexists. split; [reflexivity|]. split; [now apply tg_append_nodup|]. split.
      { intros k I. apply tg_append_keys in I. destruct I as [->|I]; [|auto]. exists (c0 :: cs). split; [discriminate|reflexivity]. }
      intros cat NE. rewrite tok_ranges_snoc, C, lookup_append. destruct (list_eqb (c0 :: cs) cat) eqn:E.
      + apply list_eqb_spec in E. subst cat. replace (list_eqb (cat_name prefix (c0 :: cs)) (cat_name prefix (c0 :: cs))) with true by (symmetry; now apply list_eqb_spec).
        rewrite (V _ NE), R. destruct (tok_ranges f (c0 :: cs) done) as [|x rs] eqn:ET; [reflexivity|]. rewrite <- collect_snoc. cbn [app]. reflexivity.
      + rewrite app_nil_r. destruct (list_eqb (cat_name prefix (c0 :: cs)) (cat_name prefix cat)) eqn:E2; [|auto]. apply list_eqb_spec, cat_name_inj in E2. subst cat.
        assert (list_eqb (c0 :: cs) (c0 :: cs) = true) by now apply list_eqb_spec. congruence. }
  destruct STEP as (tbl1 & -> & T1). cbn [rbind]. destruct (IH (done ++ [t]) tbl1 T1) as (tbl' & -> & T'). exists tbl'. split; [reflexivity|]. now rewrite <- app_assoc in T'.
Qed.
Lemma tablegen_any isNd n prefix f file sizes ls : short_lines file -> lines_of file ls -> (length file + 3 <= n)%nat -> (2 <= f)%nat ->
  exists tbl, tablegen isNd n prefix (Z.of_nat f) (NewScanner file sizes EOF) = Ok tbl /\ tok_table prefix f (file_tokens isNd ls) tbl.
Proof.
  intros SH L N F. unfold tablegen. rewrite (file_exact isNd n file sizes ls SH L N). cbn [rbind]. exact (tg_any prefix f F _ [] [] (lookup_empty prefix f)).
Qed.
(* below field 2 the first token with fields makes the generator panic *)
Lemma Field_low t i : i < 1 -> Field t i = if 0 <? zlen (Fields t) then Panic else Ok [].
Proof.
  intros I. unfold Field. destruct (Z.ltb_spec 0 (zlen (Fields t))); cbn [andb]; [|reflexivity]. destruct (Z.leb_spec i (zlen (Fields t))); [|lia].
  unfold zget. destruct (Z.leb_spec 0 (i - 1)); [lia|]. reflexivity.
Qed.
Lemma tg_low prefix f ts : f < 1 -> tg_collect prefix f [] ts = if existsb (fun t => 0 <? zlen (Fields t)) ts then Panic else Ok [].
Proof.
  intros F. induction ts as [|t ts IH]; cbn [tg_collect existsb]; [reflexivity|]. unfold tg_callback. destruct (Range t). rewrite Field_low by exact F.
  destruct (0 <? zlen (Fields t)); cbn [rbind orb]; [reflexivity|]. rewrite TrimSpace_nil. cbn [rbind]. exact IH.
Qed.
Lemma tablegen_low isNd n prefix f file sizes ls : short_lines file -> lines_of file ls -> (length file + 3 <= n)%nat -> f < 2 ->
  tablegen isNd n prefix f (NewScanner file sizes EOF) = if existsb (fun t => 0 <? zlen (Fields t)) (file_tokens isNd ls) then Panic else Ok [].
Proof. intros SH L N F. unfold tablegen. rewrite (file_exact isNd n file sizes ls SH L N). cbn [rbind]. apply tg_low. lia. Qed.

Lemma Split_some c s : Split c s <> [].
Proof. induction s as [|b s IH]; cbn [Split]; [discriminate|]. destruct (b =? c); [discriminate|]. destruct (Split c s); discriminate. Qed.
Lemma line_fields isNd x : (0 <? zlen (Fields (line_token isNd x))) = match Error (line_token isNd x) with NoErr => true | _ => false end.
Proof.
  assert (I : forall k ty a b s, (0 <? zlen (Fields (item_token k ty a b s))) = true).
  { intros k ty a b s. unfold item_token, item_body. cbn [Fields fst]. apply Z.ltb_lt. apply zlen_pos. apply Split_some. }
  destruct x as [k l]. unfold line_token. destruct (bad _); [reflexivity|]. destruct (negb _); [now rewrite I|]. destruct (bad _); [reflexivity|]. now rewrite I.
Qed.
Lemma file_fields isNd ls : existsb (fun t => 0 <? zlen (Fields t)) (file_tokens isNd ls) =
  existsb (fun t => match Error t with NoErr => true | _ => false end) (tl (file_tokens isNd ls)).
Proof.
  assert (M : forall r, existsb (fun t => 0 <? zlen (Fields t)) (map (line_token isNd) r) = existsb (fun t => match Error t with NoErr => true | _ => false end) (map (line_token isNd) r)).
  { induction r as [|x r IH]; [reflexivity|]. cbn [map existsb]. now rewrite IH, line_fields. }
  unfold file_tokens. destruct (numbered 1 ls) as [|[k l] r]; [reflexivity|]. destruct (la l =? 32); cbn [existsb tl Fields]; change (0 <? zlen []) with false; cbn [orb]; apply M.
Qed.

(* ---- brackgen ---- *)
Definition tok_opens (t : token) : bool := list_eqb (TrimSpace (nth 1 (Fields t) [])) [111].
Definition tok_pair (t : token) : Z * Z := (runeFrom t, readHexRune (nth 0 (Fields t) [])).
Lemma bg_any ts : bg_collect ts = Ok (map tok_pair (filter tok_opens ts)).
Proof.
  induction ts as [|t ts IH]; cbn [bg_collect filter]; [reflexivity|]. rewrite !Field_ok by lia. change (Z.to_nat (2 - 1)) with 1%nat. change (Z.to_nat (1 - 1)) with 0%nat. cbn [rbind].
  unfold tok_opens at 1. destruct (list_eqb (TrimSpace (nth 1 (Fields t) [])) [111]); cbn [negb]; [|exact IH]. rewrite IH. reflexivity.
Qed.
Lemma readBrackets_any isNd n file sizes ls : short_lines file -> lines_of file ls -> (length file + 3 <= n)%nat ->
  readBrackets isNd n (NewScanner file sizes EOF) =
    Ok (match last_error (file_tokens isNd ls) with NoErr => map tok_pair (filter tok_opens (file_tokens isNd ls)) | _ => [] end).
Proof.
  intros SH L N. unfold readBrackets. rewrite (file_exact isNd n file sizes ls SH L N). cbn [rbind]. destruct (last_error (file_tokens isNd ls)); [apply bg_any|reflexivity|reflexivity].
Qed.

(* ---- the generators of the class tables ---- *)
Definition tok_class (t : token) : list Z := nth 0 (Fields t) [].
Definition endless (t : token) : bool := runeTo t =? 2 ^ 31 - 1.
Definition tok_listing (key : list Z) (ts : list token) : list Z := concat (map (fun t => upto (runeFrom t) (runeTo t)) (filter (fun t => list_eqb (tok_class t) key) ts)).
Definition tok_lists (ts : list token) (tbl : list (list Z * list Z)) : Prop :=
  NoDup (map fst tbl) /\ forall key, value tbl key = if existsb (fun t => list_eqb (tok_class t) key) ts then Some (tok_listing key ts) else None.
Lemma add_any : forall ts done tbl, tok_lists done tbl -> existsb endless ts = false -> exists tbl', add_all tbl ts = Ok tbl' /\ tok_lists (done ++ ts) tbl'.
Proof.
  induction ts as [|t ts IH]; intros done tbl T E; cbn [add_all]; [exists tbl; now rewrite app_nil_r|]. cbn [existsb] in E. apply orb_false_iff in E. destruct E as [E1 E2].
  unfold add_token, Range. rewrite Field_ok by lia. change (Z.to_nat (1 - 1)) with 0%nat. fold (tok_class t). unfold endless in E1. cbn [rbind]. rewrite E1. cbn [rbind].
  destruct (IH (done ++ [t]) (put tbl (tok_class t) (upto (runeFrom t) (runeTo t)))) as (tbl' & -> & T'); [|exact E2|exists tbl'; split; [reflexivity|now rewrite <- app_assoc in T']].
  destruct T as (ND & V). split; [now apply put_nodup|]. intros key. rewrite value_put, existsb_app. cbn [existsb]. rewrite orb_false_r. unfold tok_listing. rewrite filter_app, map_app, concat_app. cbn [filter].
  destruct (list_eqb (tok_class t) key) eqn:EK; cbn [map concat].
  - rewrite orb_true_r. apply list_eqb_spec in EK. subst key. rewrite V, app_nil_r. destruct (existsb (fun t0 => list_eqb (tok_class t0) (tok_class t)) done) eqn:EX; [reflexivity|].
    replace (filter (fun t0 => list_eqb (tok_class t0) (tok_class t)) done) with (@nil token); [reflexivity|]. clear -EX. induction done as [|x done IH]; [reflexivity|]. cbn in *. apply orb_false_iff in EX. destruct EX as [-> EX]. auto.
  - rewrite orb_false_r, app_nil_r. apply V.
Qed.
Lemma add_endless : forall ts tbl, existsb endless ts = true -> add_all tbl ts = NoFuel.
Proof.
  induction ts as [|t ts IH]; intros tbl E; [discriminate|]. cbn [add_all existsb] in *. unfold add_token, Range. rewrite Field_ok by lia. cbn [rbind]. unfold endless in E at 1.
  destruct (runeTo t =? 2 ^ 31 - 1); cbn [rbind]; [reflexivity|]. apply IH. exact E.
Qed.
Lemma load_any isNd n file sizes ls : short_lines file -> lines_of file ls -> (length file + 3 <= n)%nat ->
  if existsb endless (file_tokens isNd ls) then load isNd n (NewScanner file sizes EOF) = NoFuel
  else exists tbl, load isNd n (NewScanner file sizes EOF) = Ok (tbl, NoErr) /\ tok_lists (file_tokens isNd ls) tbl.
Proof.
  intros SH L N. rewrite (load_parse isNd n _ _ _ (file_exact isNd n file sizes ls SH L N)). destruct (existsb endless (file_tokens isNd ls)) eqn:E; [now rewrite add_endless|].
  destruct (add_any (file_tokens isNd ls) [] []) as (tbl & -> & T); [split; [constructor|reflexivity]|exact E|]. exists tbl. split; [reflexivity|exact T].
Qed.
