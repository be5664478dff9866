(* PropertiesTables.v -- C56: the generated file of tables, read as Go source. *)
From Coq Require Import String List ZArith Lia Bool.
From Verif Require Import Base Ucd UcdProofs RangeTable RangeTableProofs GoTables GoTablesProofs TableExact ShapingRepo PropertiesShaping.
From Verif Require Generator.
Import ListNotations.
Open Scope Z_scope.

(* The file compiles exactly if the ranges printed under R16 fit 16 bits; then it declares, in the package asked for, every
   table under its name behind an underscore and every variable with the table of its name, and nothing else. *)
Theorem C56_source :
  forall pkg tabs vars, nameable pkg tabs vars -> Forall (fun x => printable (snd x)) tabs ->
    (Forall (fun x => fits16 (snd x)) tabs ->
      exists env, source (print_file pkg tabs vars) = Some (pkg, env) /\ map fst env = map (cons 95) (map fst tabs) ++ vars /\
        (forall k rt, In (k, rt) tabs -> get env (95 :: k) = Some (table_of rt)) /\ (forall k rt, In (k, rt) tabs -> In k vars -> get env k = Some (table_of rt))) /\
    (~ Forall (fun x => fits16 (snd x)) tabs -> source (print_file pkg tabs vars) = None).
Proof.
  intros pkg tabs vars N P. split; [|now apply source_overflow]. intros F. apply source_file; [exact N|]. rewrite Forall_forall in *. auto.
Qed.
Print Assumptions C56_source.
Definition two : list (list Z * collector) :=
  [(Generator.bytes "A", collect [(65, 90); (300, 310); (66000, 66001); (70000, 70000)]); (Generator.bytes "B", collect [(97, 122); (200, 201)])].
Definition two_vars : list (list Z) := [Generator.bytes "B"; Generator.bytes "A"].
Example C56_source_ex : nameable (Generator.bytes "p") two two_vars /\ Forall (fun x => printable (snd x) /\ fits16 (snd x)) two /\
  source (print_file (Generator.bytes "p") two two_vars) = Some (Generator.bytes "p",
    let a := mktab [(0, 0, 1); (65, 90, 1); (300, 310, 1)] [(66000, 66001, 1)] 2 in let b := mktab [(0, 0, 1); (97, 122, 1)] [] 0 in
    [(Generator.bytes "_A", a); (Generator.bytes "_B", b); (Generator.bytes "B", b); (Generator.bytes "A", a)]).
Proof.
  split; [|split; [|vm_compute; reflexivity]].
  - constructor.
    + split; [split|]; reflexivity.
    + apply Forall_cons; [split; reflexivity|]. apply Forall_cons; [split; reflexivity|constructor].
    + apply Forall_cons; [split; [split|]; reflexivity|]. apply Forall_cons; [split; [split|]; reflexivity|constructor].
    + discriminate.
    + apply distinct_spec. reflexivity.
    + intros x [<-|[<-|[]]]; [right; left|left]; reflexivity.
  - apply Forall_cons; [|apply Forall_cons; [|constructor]]; (split; [apply sorted_printable|apply sorted_fits]); try (cbn; lia); try (intros x X; cbn in X; repeat (destruct X as [<-|X]; [cbn; lia|]); contradiction); repeat (apply Forall_cons; [cbn; lia|]); constructor.
Qed.

(* For all sorted data: the file compiles exactly if in no category a block other than the last one ends at U+10000. *)
Theorem C56_compiles_iff :
  forall pkg cats vars, nameable pkg (map (fun x => (fst x, collect (snd x))) cats) vars ->
    Forall (fun x => sorted_from 1 (snd x) /\ forall y, In y (snd x) -> snd y < 2 ^ 31) cats ->
    ((exists env, source (print_file pkg (map (fun x => (fst x, collect (snd x))) cats) vars) = Some (pkg, env)) <-> Forall (fun x => ~ ends_at_10000 (snd x)) cats).
Proof.
  intros pkg cats vars N F.
  assert (P : Forall (fun x => printable (snd x)) (map (fun x : list Z * list (Z * Z) => (fst x, collect (snd x))) cats)).
  { apply Forall_forall. intros x X. apply in_map_iff in X. destruct X as (y & <- & Y). cbn [snd]. rewrite Forall_forall in F. destruct (F y Y) as (S & M). now apply sorted_printable. }
  split.
  - intros [env E]. apply Forall_forall. intros x X EN. rewrite source_overflow in E; [discriminate|exact N|exact P|]. intros G. rewrite Forall_forall in G, F. specialize (G (fst x, collect (snd x))).
    destruct (F x X) as [S M]. apply (proj1 (fits_iff (snd x) S)); [|exact EN]. apply G. apply in_map_iff. exists x. auto.
  - intros G. destruct (source_file pkg _ vars N) as (env & E & _); [|eauto]. apply Forall_forall. intros x X. rewrite Forall_forall in *. split; [now apply P|]. apply in_map_iff in X. destruct X as (y & <- & Y). cbn [snd].
    apply fits_iff; [apply F, Y|apply G, Y].
Qed.
Print Assumptions C56_compiles_iff.
(* From the data to package unicode: the variable of a category finds, by unicode.Is, exactly the data of the category
   without its last block, and NUL.  The contract of the tables is obeyed if no range touches U+10000. *)
Theorem C56_package_partial :
  forall pkg cats vars, nameable pkg (map (fun x => (fst x, collect (snd x))) cats) vars ->
    Forall (fun x => sorted_from 1 (snd x) /\ (forall y, In y (snd x) -> snd y < 2 ^ 31) /\ ~ ends_at_10000 (snd x)) cats ->
    exists env, source (print_file pkg (map (fun x => (fst x, collect (snd x))) cats) vars) = Some (pkg, env) /\
      forall k rs, In (k, rs) cats -> In k vars -> exists t, get env k = Some t /\ (off_10000 rs -> legal t) /\
        forall r, - 2 ^ 31 <= r < 2 ^ 31 -> exists b, Is t r = Ok b /\ (b = true <-> (r = 0 \/ member r rs) /\ ~ within r (last_block 0 0 rs)).
Proof.
  intros pkg cats vars N F. destruct (source_file pkg (map (fun x => (fst x, collect (snd x))) cats) vars N) as (env & E & _ & _ & V).
  - apply Forall_forall. intros x X. apply in_map_iff in X. destruct X as (y & <- & Y). cbn [snd]. rewrite Forall_forall in F. destruct (F y Y) as (S & M & O). split; [now apply sorted_printable|now apply fits_iff].
  - exists env. split; [exact E|]. intros k rs I K. rewrite Forall_forall in F. destruct (F _ I) as (S & M & O). cbn [snd] in *.
    exists (table_of (collect rs)). split; [apply V; [|exact K]; apply in_map_iff; exists (k, rs); auto|]. split; [intros OF; now apply table_legal|]. intros r R.
    exists (contains (table_of (collect rs)) r). split; [apply Is_exact; [now apply fits_searchable|exact R]|].
    rewrite contains_member. rewrite collect_spec; [|destruct rs as [|[a b] t]; cbn in *; intuition lia]. split; [|auto]. intros [H|(_ & x & t & ->)]; [exact H|]. cbn in S. lia.
Qed.
Print Assumptions C56_package_partial.
Example C56_package_ex : match source (print_file (Generator.bytes "p") two two_vars) with
  | Some (_, env) => match get env (Generator.bytes "A") with Some t => map (Is t) [0; 64; 65; 90; 300; 310; 311; 66000; 70000] | None => [] end
  | None => []
  end = map Ok [true; false; true; true; true; true; false; true; false].
Proof. vm_compute. reflexivity. Qed.

(* a block across U+10000: the table is not legal, but found *)
Example C56_across_ex : let rs := [(65, 90); (65530, 65540); (70000, 70001); (80000, 80000)] in
  ~ ends_at_10000 rs /\ table_of (collect rs) = mktab [(0, 0, 1); (65, 90, 1)] [(65530, 65540, 1); (70000, 70001, 1)] 2 /\ ~ legal (table_of (collect rs)) /\
  map (Is (table_of (collect rs))) [65529; 65530; 65535; 65536; 65540; 65541] = map Ok [false; true; true; true; true; false].
Proof.
  cbv zeta. split; [|split; [vm_compute; reflexivity|split; [|vm_compute; reflexivity]]].
  - intros (_ & H & _). apply H. apply Exists_cons_tl, Exists_cons_hd. unfold within. cbn. lia.
  - intros [_ _ H _]. vm_compute in H. destruct H as [H _]. discriminate H.
Qed.

(* Data with a range that ends at U+10000 and is not the last: the file does not compile. *)
Theorem C56_compiles_refuted :
  forall pkg k a c d, 1 < a <= 65536 -> 65537 < c <= d -> d < 2 ^ 31 -> nameable pkg [(k, collect [(a, 65536); (c, d)])] [k] ->
    source (print_file pkg [(k, collect [(a, 65536); (c, d)])] [k]) = None.
Proof.
  intros pkg k a c d A C D N. apply source_overflow; [exact N| |].
  - apply Forall_cons; [|constructor]. cbn [snd]. apply sorted_printable; [cbn; lia|]. intros x X. cbn in X. repeat (destruct X as [<-|X]; [cbn [snd]; lia|]). contradiction.
  - intros F. inversion F as [|? ? G _]; subst. cbn [snd] in G. unfold fits16, collect in G. cbn [fold_left fst snd] in G. unfold Append at 2 in G. cbn [new_collector hi lo cnt latinOffset switch32 ranges] in G.
    replace (a =? 0 + 1) with false in G by lia. unfold Append in G. cbn [hi lo cnt latinOffset switch32 ranges] in G. change (65536 + 1) with 65537 in G. replace (c =? 65537) with false in G by lia.
    replace (a >? 65536) with false in G by lia. change (65536 >? 65536) with false in G. change ((0 =? 0) && ((0 >? 65536) || (0 >? 65536))) with false in G. change (0 =? 0) with true in G. cbn [andb orb] in G.
    unfold Output in G. cbn [switch32 ranges] in G. change (0 >? 0) with false in G. cbn [fst app] in G. inversion G as [|? ? _ G2]; subst. inversion G2 as [|? ? [_ G3] _]; subst. cbn [snd] in G3. lia.
Qed.
Print Assumptions C56_compiles_refuted.
Example C56_compiles_ex : source (print_file (Generator.bytes "p") [(Generator.bytes "A", collect [(65534, 65536); (70000, 70001)])] [Generator.bytes "A"]) = None /\
  source (print_file (Generator.bytes "p") [(Generator.bytes "A", collect [(65534, 65535); (70000, 70001)])] [Generator.bytes "A"]) <> None.
Proof. split; [vm_compute; reflexivity|vm_compute; discriminate]. Qed.
(* Without any category the import is not used: that does not compile, either. *)
Theorem C56_empty_refuted : exists pkg, source (print_file pkg [] []) = None.
Proof. exists (Generator.bytes "p"). vm_compute. reflexivity. Qed.
Print Assumptions C56_empty_refuted.

(* The files of package shaping compile, and their variables are the tables of C56_shaping. *)
Theorem C56_repository_source :
  forall tabs text, In (tabs, text) [(arab_tables, arab_text); (uipc_tables, uipc_text); (uisc_tables, uisc_text)] ->
    exists env, source (Generator.bytes text) = Some (Generator.bytes "shaping", env) /\ length env = (length tabs + length tabs)%nat /\
      forall x, In x tabs -> get env (Generator.bytes (fst x)) = Some (rtab x) /\ get env (95 :: Generator.bytes (fst x)) = Some (rtab x).
Proof.
  assert (H : forall tabs env, map (fun x => (get env (Generator.bytes (fst x)), get env (95 :: Generator.bytes (fst x)))) tabs = map (fun x => (Some (rtab x), Some (rtab x))) tabs ->
    forall x, In x tabs -> get env (Generator.bytes (fst x)) = Some (rtab x) /\ get env (95 :: Generator.bytes (fst x)) = Some (rtab x)).
  { intros tabs env. induction tabs as [|y t IH]; [contradiction|]. intros E x X. cbn [map] in E. injection E as E1 E2 E3. destruct X as [<-|X]; [auto|]. now apply IH. }
  intros tabs text [I|[I|[I|[]]]]; injection I as <- <-; (eexists; split; [vm_compute; reflexivity|]; split; [vm_compute; reflexivity|]; apply H; vm_compute; reflexivity).
Qed.
Print Assumptions C56_repository_source.
