(* PropertiesShaping.v -- C56: range tables of the generator and of package shaping under package unicode. *)
From Coq Require Import String List ZArith Lia Bool.
From Verif Require Import Base Ucd UcdProofs RangeTable RangeTableProofs ShapingRepo.
From Verif Require Generator Classes ClassProofs.
Import ListNotations.
Open Scope Z_scope.

(* A table is legal and unicode.Is, which searches the middle of long tables, finds exactly its code points. *)
Theorem C56_is : forall t r, legal t -> - 2 ^ 31 <= r < 2 ^ 31 -> Is t r = Ok (contains t r).
Proof. exact Is_ok. Qed.
Print Assumptions C56_is.
Example C56_is_ex : let t := mktab [(65, 90, 1); (256, 300, 2)] [(65536, 65540, 1)] 1 in
  legal t /\ map (Is t) [65; 257; 258; 65536; -1] = map Ok [true; false; true; true; false].
Proof. cbv zeta. split; [constructor; cbn; repeat constructor; cbn; lia|reflexivity]. Qed.

(* What the generator prints for sorted data is legal, and contains the data without its last block, and NUL. *)
Theorem C56_generated_partial :
  forall rs, sorted_from 1 rs -> off_10000 rs -> (forall x, In x rs -> snd x < 2 ^ 31) ->
    legal (table_of (collect rs)) /\
    forall r, - 2 ^ 31 <= r < 2 ^ 31 -> exists b, Is (table_of (collect rs)) r = Ok b /\ (b = true <-> (r = 0 \/ member r rs) /\ ~ within r (last_block 0 0 rs)).
Proof.
  intros rs S O MX. destruct (table_legal rs S O MX) as [LG _]. split; [exact LG|]. intros r R. exists (contains (table_of (collect rs)) r). split; [now apply Is_ok|].
  rewrite contains_member. rewrite collect_spec; [|destruct rs as [|[a b] t]; cbn in *; intuition lia]. split; [|auto]. intros [H|(_ & x & t & ->)]; [exact H|]. cbn in S. lia.
Qed.
Print Assumptions C56_generated_partial.
Example C56_generated_ex : let rs := [(65, 90); (300, 310); (311, 320); (66000, 66001); (70000, 70000)] in
  sorted_from 1 rs /\ off_10000 rs /\ table_of (collect rs) = mktab [(0, 0, 1); (65, 90, 1); (300, 320, 1)] [(66000, 66001, 1)] 2 /\ last_block 0 0 rs = (70000, 70000).
Proof. cbv zeta. split; [cbn; lia|]. split; [repeat constructor; cbn; lia|]. split; reflexivity. Qed.

(* A printed LatinOffset is the number of ranges within Latin-1, so that these may be skipped for other code points. *)
Theorem C56_latin_partial :
  forall rs, sorted_from 1 rs -> off_10000 rs -> (forall x, In x rs -> snd x < 2 ^ 31) ->
    let t := table_of (collect rs) in
    (LatinOffset t <> 0 -> LatinOffset t = zlen (filter (fun e => snd (fst e) <=? 255) (R16 t))) /\
    forall r, 255 < r < 2 ^ 31 -> isExcludingLatin t r = Is t r.
Proof.
  intros rs S O MX. destruct (table_legal rs S O MX) as [LG LO]. cbv zeta. split; [intros NZ; rewrite LO in *; destruct (forallb _ _); congruence|]. intros r R.
  rewrite Is_ok by (auto; lia). apply isExcludingLatin_ok; auto.
  - rewrite LO. destruct (forallb _ _).
    + split; [lia|apply zlen_nonneg].
    + split; [apply zlen_nonneg|]. generalize (R16 (table_of (collect rs))). clear. intros l. unfold zlen. induction l as [|x t IH]; cbn [filter length]; [lia|]. destruct (snd (fst x) <=? 255); cbn [length]; lia.
  - rewrite LO. destruct (forallb _ _); [constructor|]. pose proof (l_16 _ LG) as OR. revert OR. generalize (R16 (table_of (collect rs))). generalize (-1). clear. intros k l. revert k.
    induction l as [|[[a b] s] t IH]; intros k OR; cbn [filter fst snd]; [constructor|]. destruct OR as (O1 & O2 & O3 & O4). destruct (Z.leb_spec b 255).
    + rewrite zlen_cons. match goal with |- context [Z.to_nat (?z + 1)] => replace (Z.to_nat (z + 1)) with (S (Z.to_nat z)) by (unfold zlen; lia) end.
      cbn [firstn]. constructor; [cbn; lia|]. exact (IH b O4).
    + assert (E : filter (fun e : Z * Z * Z => snd (fst e) <=? 255) t = []); [|rewrite E; constructor].
      destruct (filter (fun e : Z * Z * Z => snd (fst e) <=? 255) t) as [|y u] eqn:EF; [reflexivity|]. exfalso. assert (Y : In y (filter (fun e : Z * Z * Z => snd (fst e) <=? 255) t)) by (rewrite EF; left; reflexivity). apply filter_In in Y.
      clear - H Y O4 O2. destruct Y as [Y YL]. revert b a H O4 O2. induction t as [|[[p q] s'] t IH]; intros b a H O4 O2; [destruct Y|]. destruct O4 as (P1 & P2 & P3 & P4). destruct Y as [<-|Y]; [cbn in YL; lia|]. apply (IH Y q p); auto; lia.
Qed.
Print Assumptions C56_latin_partial.
(* It is not printed for tables of Latin-1 only. *)
Theorem C56_latin_refuted :
  exists rs, sorted_from 1 rs /\ off_10000 rs /\ let t := table_of (collect rs) in LatinOffset t <> zlen (filter (fun e => snd (fst e) <=? 255) (R16 t)).
Proof. exists [(65, 90); (97, 122)]. split; [cbn; lia|]. split; [repeat constructor; cbn; lia|]. vm_compute. discriminate. Qed.
Print Assumptions C56_latin_refuted.

(* A category of one block has a table of NUL only. *)
Theorem C56_one_block_refuted :
  forall a b r, 1 < a <= b -> b < 65536 -> - 2 ^ 31 <= r < 2 ^ 31 -> Is (table_of (collect [(a, b)])) r = Ok (r =? 0).
Proof.
  intros a b r R B RR. destruct (C56_generated_partial [(a, b)]) as [_ H].
  - cbn. lia.
  - constructor; [cbn; lia|constructor].
  - intros x [<-|[]]. cbn. lia.
  - destruct (H r RR) as (c & -> & E). f_equal. destruct c.
    + destruct E as [E _]. specialize (E eq_refl). cbn [last_block] in E. replace (a =? 0 + 1) with false in E by lia. rewrite member_one in E. unfold within in E. cbn [fst snd] in E. lia.
    + destruct (Z.eqb_spec r 0); [|reflexivity]. subst r. destruct E as [_ E]. apply E. split; [auto|]. cbn [last_block]. replace (a =? 0 + 1) with false by lia. unfold within. cbn. lia.
Qed.
Print Assumptions C56_one_block_refuted.

(* ---- the tables of the repository ---- *)
(* every table without the last block of its category, of which nothing is known: any block behind it *)
Definition rest_of : Z * Z := (1114111, 1114111).
Definition collected_from (x : string * list (Z * Z)) : list Z * collector := (Generator.bytes (fst x), collect (snd x ++ [rest_of])).
Definition file_of (tabs : list (string * list (Z * Z))) (vars : list string) : list Z :=
  print_file (Generator.bytes "shaping"%string) (map collected_from tabs) (map Generator.bytes vars).
(* The files are what the generator prints, byte by byte. *)
Theorem C56_repository :
  file_of arab_tables arab_vars = Generator.bytes arab_text /\ file_of uipc_tables uipc_vars = Generator.bytes uipc_text /\ file_of uisc_tables uisc_vars = Generator.bytes uisc_text.
Proof. split; [vm_compute; reflexivity|]. split; vm_compute; reflexivity. Qed.
Print Assumptions C56_repository.

Definition rtab (x : string * list (Z * Z)) : rtable := table_of (snd (collected_from x)).
Fixpoint sorted_fromb (k : Z) (rs : list (Z * Z)) : bool :=
  match rs with [] => true | (l, r) :: t => (k <? l) && (l <=? r) && sorted_fromb r t end.
Lemma sorted_fromb_ok rs : forall k, sorted_fromb k rs = true -> sorted_from k rs.
Proof. induction rs as [|[l r] t IH]; intros k H; cbn in *; [auto|]. apply andb_true_iff in H. destruct H as [H1 H2]. apply IH in H2. split; [lia|]. split; [lia|exact H2]. Qed.
Definition good (x : string * list (Z * Z)) : bool :=
  sorted_fromb 1 (snd x ++ [rest_of]) && forallb (fun y => ((snd y <? 65536) || (65536 <? fst y)) && (snd y <? 2 ^ 31)) (snd x ++ [rest_of]) &&
  forallb (fun y => snd y + 1 <? fst rest_of) (snd x).
Lemma good_table x : good x = true -> legal (rtab x) /\ forall r, - 2 ^ 31 <= r < 2 ^ 31 -> exists b, Is (rtab x) r = Ok b /\ (b = true <-> r = 0 \/ member r (snd x)).
Proof.
  intros G. apply andb_true_iff in G. destruct G as [G GL]. apply andb_true_iff in G. destruct G as [GS GO]. apply sorted_fromb_ok in GS. rewrite forallb_forall in GO, GL.
  destruct (C56_generated_partial (snd x ++ [rest_of])) as [LG H].
  - exact GS.
  - apply Forall_forall. intros y Y. specialize (GO y Y). lia.
  - intros y Y. specialize (GO y Y). lia.
  - split; [exact LG|]. intros r R. unfold rtab, collected_from. cbn [snd]. exists (contains (table_of (collect (snd x ++ [rest_of]))) r). split; [now apply Is_ok|].
    rewrite contains_member. pose proof (collected_sentinel (snd x) (fst rest_of) (snd rest_of)) as CS. pose proof (output_ranges (collect (snd x ++ [rest_of]))) as RG.
    change [(fst rest_of, snd rest_of)] with [rest_of] in CS. destruct (Output (collect (snd x ++ [rest_of]))) as [[a b] o]. rewrite <- RG. apply CS.
    + clear - GS. destruct (snd x ++ [rest_of]) as [|[? ?] ?]; cbn in *; [auto|]. intuition lia.
    + intros c [->|M]; [reflexivity|]. apply Exists_exists in M. destruct M as (y & Y & W). specialize (GL y Y). unfold within in W. lia.
Qed.
Lemma all_good : forallb good (arab_tables ++ uipc_tables ++ uisc_tables) = true.
Proof. vm_compute. reflexivity. Qed.
(* All tables of package shaping are legal; unicode.Is finds the listed ranges and NUL. *)
Theorem C56_shaping :
  forall x, In x (arab_tables ++ uipc_tables ++ uisc_tables) -> legal (rtab x) /\
    forall r, - 2 ^ 31 <= r < 2 ^ 31 -> exists b, Is (rtab x) r = Ok b /\ (b = true <-> r = 0 \/ member r (snd x)).
Proof. intros x X. apply good_table. pose proof all_good as G. rewrite forallb_forall in G. exact (G x X). Qed.
Print Assumptions C56_shaping.
Example C56_shaping_ex : exists x, In x arab_tables /\ fst x = "ARAB_R"%string /\ Is (rtab x) 1575 = Ok true /\ Is (rtab x) 1576 = Ok false.
Proof.
  destruct (find (fun x => String.eqb (fst x) "ARAB_R"%string) arab_tables) as [x|] eqn:E; [|vm_compute in E; discriminate]. exists x. pose proof (find_some _ _ E) as [I N].
  split; [exact I|]. split; [now apply String.eqb_eq|]. vm_compute in E. injection E as <-. vm_compute. split; reflexivity.
Qed.

Lemma exclusive_file tabs : ClassProofs.exclusive (map snd tabs) = true -> forallb good tabs = true ->
  forall r i j x y, - 2 ^ 31 <= r < 2 ^ 31 -> r <> 0 -> nth_error tabs i = Some x -> nth_error tabs j = Some y -> Is (rtab x) r = Ok true -> Is (rtab y) r = Ok true -> i = j.
Proof.
  intros E G r i j x y R NZ X Y HX HY. rewrite forallb_forall in G.
  assert (MM : forall z, In z tabs -> Is (rtab z) r = Ok true -> Classes.Is (snd z) r = true).
  { intros z Z H. destruct (good_table z (G z Z)) as [_ H']. destruct (H' r R) as (b & Eb & B). rewrite H in Eb. injection Eb as <-. destruct B as [B _]. destruct (B eq_refl) as [|M]; [congruence|].
    unfold Classes.Is. apply existsb_exists. apply Exists_exists in M. destruct M as (p & P & W). exists p. split; [exact P|]. unfold within in W. unfold Classes.in_range. lia. }
  apply (ClassProofs.exclusive_sound (map snd tabs) E r i j (snd x) (snd y)).
  - now apply map_nth_error.
  - now apply map_nth_error.
  - apply MM; [eapply nth_error_In; eauto|exact HX].
  - apply MM; [eapply nth_error_In; eauto|exact HY].
Qed.
(* A code point other than NUL is in at most one table of each property. *)
Theorem C56_exclusive_partial :
  forall tabs, In tabs [arab_tables; uipc_tables; uisc_tables] ->
  forall r i j x y, - 2 ^ 31 <= r < 2 ^ 31 -> r <> 0 -> nth_error tabs i = Some x -> nth_error tabs j = Some y -> Is (rtab x) r = Ok true -> Is (rtab y) r = Ok true -> i = j.
Proof. intros tabs [<-|[<-|[<-|[]]]]; apply exclusive_file; vm_compute; reflexivity. Qed.
Print Assumptions C56_exclusive_partial.
(* NUL is in all of them, and ten tables contain nothing else, among them those of joiner and non-joiner. *)
Theorem C56_nul_refuted :
  (forall x, In x (arab_tables ++ uipc_tables ++ uisc_tables) -> Is (rtab x) 0 = Ok true) /\
  map fst (filter (fun x => match snd x with [] => true | _ => false end) (arab_tables ++ uipc_tables ++ uisc_tables)) =
  ["UIPC_Top_And_Bottom_And_Right"%string; "UIPC_Bottom_And_Left"%string; "UISC_Modifying_Letter"%string; "UISC_Consonant_Head_Letter"%string; "UISC_Non_Joiner"%string; "UISC_Consonant_Initial_Postfixed"%string; "UISC_Joiner"%string;
   "UISC_Register_Shifter"%string; "UISC_Number_Joiner"%string; "UISC_Brahmi_Joining_Number"%string].
Proof.
  split; [|vm_compute; reflexivity]. intros x X. destruct (C56_shaping x X) as [_ H]. destruct (H 0) as (b & E & B); [lia|]. rewrite E. f_equal. apply B. auto.
Qed.
Print Assumptions C56_nul_refuted.
