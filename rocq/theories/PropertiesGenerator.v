(* PropertiesGenerator.v -- C53 and C54: the generators of the class tables. *)
From Coq Require Import String List ZArith Lia Bool Permutation.
From Verif Require Import Base LineBuf UcdSpec UcdParse UcdProofs UcdGenProofs Generator GoSource GeneratorProofs GeneratorFileProofs GeneratorRepo.
Import ListNotations.
Open Scope Z_scope.

Lemma grapheme_spec_ok : spec_ok grapheme_spec.
Proof. split; [split; reflexivity|split; reflexivity|vm_compute; intuition discriminate]. Qed.
Lemma uax29_spec_ok : spec_ok uax29_spec.
Proof. split; [split; reflexivity|split; reflexivity|vm_compute; intuition discriminate]. Qed.
Lemma uax14_spec_ok : spec_ok uax14_spec.
Proof. split; [split; reflexivity|split; reflexivity|vm_compute; intuition discriminate]. Qed.
Lemma emoji_spec_ok : spec_ok emoji_spec.
Proof. split; [split; reflexivity|split; reflexivity|vm_compute; intuition discriminate]. Qed.

(* ---- C53: the tables ---- *)
(* What is loaded from a well-formed file: the list of a class holds the code points of the items of this class,
   in the order of the file, and nothing else; the class without name has NUL in addition. *)
Theorem C53_lists_partial :
  forall isNd n file sizes ls its, short_lines file -> lines_of file ls -> contents 1 ls its -> (length file + 3 <= n)%nat ->
    Forall (fun x => snd (item_range (snd x)) < 2 ^ 31 - 1) its -> its <> [] ->
    exists tbl, load isNd n (NewScanner file sizes EOF) = Ok (tbl, NoErr) /\
      NoDup (map fst tbl) /\ forall key, key <> [] ->
        value tbl key = (if existsb (in_class key) (map snd its) then Some (listing key (map snd its)) else None) /\
        forall c, In c (listing key (map snd its)) <-> exists it, In it (map snd its) /\ class_field it = key /\ fst (item_range it) <= c <= snd (item_range it).
Proof.
  intros isNd n file sizes ls its SH L C N B NE. destruct (load_ok isNd n file sizes ls its SH L C N B NE) as (tbl & E & ND & _ & V).
  exists tbl. split; auto. split; auto. intros key KN. split; [|intros c; apply in_listing]. rewrite V. destruct (list_eqb [] key) eqn:E0; auto. apply list_eqb_spec in E0. congruence.
Qed.
Print Assumptions C53_lists_partial.
(* What is written for the lists is a Go function that gives each variable, and each place of the table, exactly
   the code points of its list -- in whichever order the classes are written.  Surrogates become U+FFFD. *)
Theorem C53_program_partial :
  forall g tbl, spec_ok g -> Forall (fun kl => key_ok (fst kl)) tbl -> NoDup (map (fun kl => key_name (fst kl)) tbl) ->
    exists vars places, program (generateRanges g tbl) = Some (setup_name g, (vars, places)) /\
      (forall k l, In (k, l) tbl -> value vars (key_name k) = Some (map fixed l) /\ value places (key_name k ++ bytes "Class") = Some (map fixed l)) /\
      (forall x, ~ In x (map (fun kl => key_name (fst kl)) tbl) -> value vars x = None).
Proof. exact program_values. Qed.
Print Assumptions C53_program_partial.
(* code points other than surrogates are written as they are *)
Theorem C53_fixed : forall r, 0 <= r <= 1114111 -> fixed r = if (55296 <=? r) && (r <=? 57343) then 65533 else r.
Proof.
  intros r R. unfold fixed, valid_rune. destruct (Z.leb_spec 0 r), (Z.ltb_spec r 55296), (Z.ltb_spec 57343 r), (Z.leb_spec r 1114111), (Z.leb_spec 55296 r), (Z.leb_spec r 57343); cbn; try lia; auto.
Qed.
Print Assumptions C53_fixed.
Example C53_program_ex : spec_ok grapheme_spec /\ key_ok (bytes " CR") /\
  program (generateRanges grapheme_spec [(bytes " CR", [13]); (bytes " X", [39; 92; 65; 127; 233; 128512])]) =
    Some (bytes "setupGraphemeClasses", ([(bytes "X", [39; 92; 65; 127; 233; 128512]); (bytes "CR", [13])], [(bytes "XClass", [39; 92; 65; 127; 233; 128512]); (bytes "CRClass", [13])])).
Proof.
  split; [exact grapheme_spec_ok|]. split; [|reflexivity]. exists (bytes " "), (bytes "CR"). split; [repeat constructor|]. split; [split; reflexivity|reflexivity].
Qed.
(* The token for the document is taken for an item: every file with an item gives a class without name, and the
   text written for it is no Go program, in whichever order the classes are written. *)
Theorem C53_no_program_refuted :
  forall g isNd n file sizes ls its, spec_ok g -> short_lines file -> lines_of file ls -> contents 1 ls its -> (length file + 3 <= n)%nat ->
    Forall (fun x => snd (item_range (snd x)) < 2 ^ 31 - 1) its -> Forall (fun x => key_ok (class_field (snd x))) its -> its <> [] ->
    exists tbl, load isNd n (NewScanner file sizes EOF) = Ok (tbl, NoErr) /\ forall tbl', Permutation tbl tbl' -> program (generateRanges g tbl') = None.
Proof.
  intros g isNd n file sizes ls its OK SH L C N B F NE. destruct (load_ok isNd n file sizes ls its SH L C N B NE) as (tbl & E & T).
  exists tbl. split; auto. intros tbl' P. apply (no_program g (map snd its) tbl tbl'); auto. apply Forall_forall. intros it I. apply in_map_iff in I. destruct I as (x & <- & I).
  rewrite Forall_forall in F. auto.
Qed.
Print Assumptions C53_no_program_refuted.
Definition crlf_file : list Z := bytes "000D ; CR # a" ++ newline ++ bytes "000A ; LF" ++ newline.
Definition cr_item : item := mkitem 13 None [bytes " CR "] (Some (bytes " a")).
Definition lf_item : item := mkitem 10 None [bytes " LF"] None.
Ltac all_chars := match goal with |- Forall _ ?l => let l' := eval vm_compute in l in change l with l' end; repeat (apply Forall_cons; [unfold field_char; lia|]); apply Forall_nil.
Lemma crlf_contents : lines_of crlf_file [bytes "000D ; CR # a"; bytes "000A ; LF"] /\ contents 1 [bytes "000D ; CR # a"; bytes "000A ; LF"] [(1, cr_item); (2, lf_item)].
Proof.
  split; [do 2 (eapply lines_one; [discriminate|reflexivity|]); constructor|].
  apply (contents_item 1 _ _ cr_item).
  { exists (bytes "000D"), [], (bytes " "). split; [|split; [reflexivity|split; [repeat constructor|reflexivity]]].
    exists [(true, 0); (true, 0); (true, 0); (true, 13)]. repeat split; try reflexivity; [discriminate|]. repeat (constructor; [cbn; lia|]). constructor. }
  { split; [cbn; lia|]. split; [exact I|]. split; [discriminate|]. split; [|cbn; intuition lia]. constructor; [all_chars|constructor]. }
  { exact I. }
  apply (contents_item 2 _ _ lf_item).
  { exists (bytes "000A"), [], (bytes " "). split; [|split; [reflexivity|split; [repeat constructor|reflexivity]]].
    exists [(true, 0); (true, 0); (true, 0); (true, 10)]. repeat split; try reflexivity; [discriminate|]. repeat (constructor; [cbn; lia|]). constructor. }
  { split; [cbn; lia|]. split; [exact I|]. split; [discriminate|]. split; [|exact I]. constructor; [all_chars|constructor]. }
  { exact I. }
  constructor.
Qed.
Lemma crlf_short : short_lines crlf_file.
Proof. intros a b c E _. assert (L : zlen (a ++ b ++ c) < 65536) by (rewrite <- E; reflexivity). unfold zlen in *. rewrite !app_length in L. lia. Qed.
Example C53_lists_ex : short_lines crlf_file /\ Forall (fun x => key_ok (class_field (snd x))) [(1, cr_item); (2, lf_item)] /\ Forall (fun x => snd (item_range (snd x)) < 2 ^ 31 - 1) [(1, cr_item); (2, lf_item)] /\
  load (fun _ => false) 60 (NewScanner crlf_file [] EOF) = Ok ([([], [0]); (bytes " CR", [13]); (bytes " LF", [10])], NoErr).
Proof.
  split; [exact crlf_short|]. split.
  { constructor; [exists (bytes " "), (bytes "CR")|constructor; [exists (bytes " "), (bytes "LF")|constructor]]; (split; [repeat constructor|split; [split; reflexivity|reflexivity]]). }
  split; [|vm_compute; reflexivity]. repeat (constructor; [cbn; lia|]). constructor.
Qed.
(* A class of surrogates is written as U+FFFD, which is how U+FFFD has come into the class Control of package
   grapheme (C49). *)
Theorem C53_surrogates_refuted : forall c, 55296 <= c <= 57343 ->
  program (generateRanges grapheme_spec [(bytes "Control", [c])]) = Some (bytes "setupGraphemeClasses", ([(bytes "Control", [65533])], [(bytes "ControlClass", [65533])])).
Proof.
  intros c C. rewrite (program_ok grapheme_spec [(bytes "Control", [c])] grapheme_spec_ok).
  - unfold after, placed. cbn [map fst snd rev app]. replace (fixed c) with 65533; [reflexivity|]. rewrite C53_fixed by lia. replace (55296 <=? c) with true by lia. now replace (c <=? 57343) with true by lia.
  - constructor; [|constructor]. exists [], (bytes "Control"). split; [constructor|]. split; [split; reflexivity|reflexivity].
Qed.
Print Assumptions C53_surrogates_refuted.
(* If a class is written with a blank on one line and without on another, the lists are kept apart and the
   second assignment overwrites the first: code points are lost. *)
Theorem C53_spelling_refuted :
  load (fun _ => false) 60 (NewScanner (bytes "0041;X" ++ newline ++ bytes "0042; X" ++ newline) [] EOF) = Ok ([([], [0]); (bytes "X", [65]); (bytes " X", [66])], NoErr) /\
  forall tbl, Permutation [(bytes "X", [65]); (bytes " X", [66])] tbl ->
    exists vars places l, program (generateRanges grapheme_spec tbl) = Some (bytes "setupGraphemeClasses", (vars, places)) /\ value vars (bytes "X") = Some l /\ ~ (In 65 l /\ In 66 l).
Proof.
  split; [vm_compute; reflexivity|]. intros tbl P. apply Permutation_length_2_inv in P. destruct P as [-> | ->].
  - do 3 eexists. split; [vm_compute; reflexivity|]. split; [reflexivity|]. cbn. lia.
  - do 3 eexists. split; [vm_compute; reflexivity|]. split; [reflexivity|]. cbn. lia.
Qed.
Print Assumptions C53_spelling_refuted.
(* Errors in the file are never reported: the error that is checked is that of the last token, the end of the file. *)
Theorem C53_errors_refuted :
  (forall isNd n input tbl e, load isNd n input = Ok (tbl, e) -> e = NoErr) /\
  exists ps tbl, Parse (fun _ => false) 60 (NewScanner (bytes "0041;X" ++ newline ++ bytes "99999999999999999;X" ++ newline) [] EOF) = Ok (ps, HexError) /\
    load (fun _ => false) 60 (NewScanner (bytes "0041;X" ++ newline ++ bytes "99999999999999999;X" ++ newline) [] EOF) = Ok (tbl, NoErr).
Proof.
  split; [exact load_err|]. do 2 eexists. split; vm_compute; reflexivity.
Qed.
Print Assumptions C53_errors_refuted.

(* ---- C54: the names of the classes ---- *)
(* String gives every class its name with "Class" behind it, whatever the list of names. *)
Theorem C54_names : forall type pseudo names a s b, names = a ++ s :: b -> (forall p, In p pseudo -> fst p <> zlen a) ->
  String_of type pseudo names (zlen a) = Ok (s ++ bytes "Class").
Proof. exact String_ok. Qed.
Print Assumptions C54_names.
(* The array written for the start indices reads as the numbers used by String (they must be below 2^16 for the
   array to compile). *)
Theorem C54_index_partial : forall a b names rest, zlen (all_names names) < 65536 ->
  tokens false (startinxs a b [] 0 names ++ bytes " }" ++ rest) = option_map (app (flat_map (fun v => [Sym 44; Num v]) (starts 0 names))) (tokens (match names with [] => false | _ => true end) (bytes " }" ++ rest)) /\
  Forall (fun v => 0 < v < 65536) (starts 0 names).
Proof.
  intros a b names rest L. split.
  - destruct (lex_starts a b names 0 [] (bytes "}" ++ rest) false ltac:(lia) ltac:(lia)) as (s & -> & _ & E). exact E.
  - eapply Forall_impl; [|apply starts_bound]. cbv beta. intros v. lia.
Qed.
Print Assumptions C54_index_partial.
(* The constants: the i-th class has the number i. *)
Theorem C54_numbers : forall g names rest, spec_ok g -> Forall ident names -> zlen names < 2 ^ 63 ->
  tokens false (print_consts g 0 names ++ rest) = option_map (app (const_toks g 0 names)) (tokens false rest).
Proof. intros g names rest OK F L. apply (eats_consts g OK names 0 F); lia. Qed.
Print Assumptions C54_numbers.
Example C54_numbers_ex : const_toks grapheme_spec 0 [bytes "CR"; bytes "LF"] =
  [Id (bytes "CRClass"); Id (bytes "GraphemeClass"); Sym 61; Num 0; Semi; Id (bytes "LFClass"); Id (bytes "GraphemeClass"); Sym 61; Num 1; Semi] /\ Forall ident [bytes "CR"; bytes "LF"].
Proof. split; [reflexivity|]. repeat constructor. Qed.
(* The files of the repository are what the generators write: constants, variables, names and start indices. *)
Theorem C54_repository :
  (print_consts grapheme_spec 0 (g_names grapheme_spec), print_vars modten 0 (g_names grapheme_spec), all_names (g_names grapheme_spec), startinxs 41 75 [] 0 (g_names grapheme_spec))
    = (bytes grapheme_consts, bytes grapheme_vars, bytes grapheme_name, bytes grapheme_index) /\
  (print_consts uax29_spec 0 (g_names uax29_spec), print_vars modten 0 (g_names uax29_spec), all_names (g_names uax29_spec), startinxs 38 72 [] 0 (g_names uax29_spec))
    = (bytes uax29_consts, bytes uax29_vars, bytes uax29_name, bytes uax29_index) /\
  (print_consts emoji_spec 0 (g_names emoji_spec), print_vars modeight 0 (g_names emoji_spec), all_names (g_names emoji_spec), startinxs 41 75 [] 0 (g_names emoji_spec))
    = (bytes emoji_consts, bytes emoji_vars, bytes emoji_name, bytes emoji_index).
Proof. split; [vm_compute; reflexivity|]. split; vm_compute; reflexivity. Qed.
Print Assumptions C54_repository.
(* grapheme/graphemeclasses.go:54-61, uax29/uax29classes.go:59-66 *)
Definition grapheme_pseudo : list (Z * list Z) := [(1000, bytes "sot"); (1001, bytes "eot"); (999, bytes "Any")].
Definition uax29_pseudo : list (Z * list Z) := [(1000, bytes "sot"); (1001, bytes "eot"); (999, bytes "Other")].
(* Different classes have different names, also those that are not classes. *)
Theorem C54_distinct :
  (forall c d, - 2 ^ 63 <= c < 2 ^ 63 -> - 2 ^ 63 <= d < 2 ^ 63 ->
    String_of (g_type grapheme_spec) grapheme_pseudo (g_names grapheme_spec) c = String_of (g_type grapheme_spec) grapheme_pseudo (g_names grapheme_spec) d -> c = d) /\
  (forall c d, - 2 ^ 63 <= c < 2 ^ 63 -> - 2 ^ 63 <= d < 2 ^ 63 ->
    String_of (g_type uax29_spec) uax29_pseudo (g_names uax29_spec) c = String_of (g_type uax29_spec) uax29_pseudo (g_names uax29_spec) d -> c = d) /\
  (forall c d, - 2 ^ 63 <= c < 2 ^ 63 -> - 2 ^ 63 <= d < 2 ^ 63 ->
    String_of (g_type emoji_spec) [] (g_names emoji_spec) c = String_of (g_type emoji_spec) [] (g_names emoji_spec) d -> c = d).
Proof.
  split; [|split]; apply String_inj; vm_compute; reflexivity.
Qed.
Print Assumptions C54_distinct.
Example C54_ex : map (String_of (g_type grapheme_spec) grapheme_pseudo (g_names grapheme_spec)) [0; 12; 13; -1; 999; 1000] =
  map Ok (map bytes ["CRClass"; "ZWJClass"; "GraphemeClass(13)"; "GraphemeClass(-1)"; "Any"; "sot"]%string).
Proof. vm_compute. reflexivity. Qed.
