(* PropertiesOptions.v -- options and readable forms of package bidi (C60, C61), contexts of package uax11 (C62). *)
From Coq Require Import List ZArith Lia Bool Permutation String.
From Verif Require Import Base Utf8 Utf8Proofs Generator Scrap Scanner Reorder Options OptionsProofs Show ShowProofs Width WidthSpec WidthProofs WidthContext PropertiesStrings.
Import ListNotations.
Open Scope Z_scope.

(* ---- C60: options ---- *)
(* Whatever options are given in whatever order, a flag is set exactly if some option switches it on.  Nil options
   and RecognizeLegacy have no effect. *)
Theorem C60_some_option : forall cs, configure (map option_of cs) = mkmode (some_yes says_r2l cs) (some_yes says_test cs) (some_yes says_ignore cs).
Proof. exact configure_yes. Qed.
Print Assumptions C60_some_option.
(* So the last option wins, as long as none is taken back. *)
Theorem C60_last_option_partial : forall cs,
  no_retreat says_r2l false cs = true -> no_retreat says_test false cs = true -> no_retreat says_ignore false cs = true ->
  configure (map option_of cs) = wanted cs.
Proof. exact configure_wanted. Qed.
Print Assumptions C60_last_option_partial.
Example C60_last_option_ex :
  let cs := [CTest false; CIgnore true; CNil; CDir 0; CDir 1; CLegacy true; CTest true] in
  no_retreat says_r2l false cs = true /\ no_retreat says_test false cs = true /\ no_retreat says_ignore false cs = true /\
  configure (map option_of cs) = mkmode true true true /\ configure (map option_of [CDir 0; CTest false]) = mkmode false false false.
Proof. vm_compute. auto. Qed.
(* The order of the options does not matter. *)
Theorem C60_order : forall cs ds, Permutation cs ds -> configure (map option_of cs) = configure (map option_of ds).
Proof. exact configure_perm. Qed.
Print Assumptions C60_order.
(* An option that has been switched on cannot be switched off: after any options that contain TestMode(true),
   TestMode(false) leaves test mode on; the same for the others. *)
Theorem C60_retreat_refuted : forall cs,
  (In (CTest true) cs -> m_test (configure (map option_of (cs ++ [CTest false]))) = true /\ m_test (wanted (cs ++ [CTest false])) = false) /\
  (In (CIgnore true) cs -> m_ignore (configure (map option_of (cs ++ [CIgnore false]))) = true /\ m_ignore (wanted (cs ++ [CIgnore false])) = false) /\
  (In (CDir 1) cs -> m_r2l (configure (map option_of (cs ++ [CDir 0]))) = true /\ m_r2l (wanted (cs ++ [CDir 0])) = false).
Proof.
  intros cs. rewrite !configure_yes. cbn [m_test m_ignore m_r2l wanted]. unfold some_yes, last_word. rewrite !existsb_app, !fold_left_app. cbn [fold_left says_test says_ignore says_r2l].
  repeat split; intros; apply orb_true_iff; left; apply existsb_exists; eexists; (split; [eassumption|reflexivity]).
Qed.
Print Assumptions C60_retreat_refuted.
Example C60_retreat_ex : configure [TestMode true; TestMode false] = mkmode false true false /\ wanted [CTest true; CTest false] = mkmode false false false.
Proof. vm_compute. auto. Qed.

(* ---- C61: names and readable forms ---- *)
(* The name of every class in use is its name in UAX#9 or in the package (an independent table), no class panics. *)
Theorem C61_names : Forall (fun p => classString (fst p) = Ok (snd p)) class_names /\ forall c, 0 <= c -> exists n, classString c = Ok n.
Proof. split; [exact names_ok|exact name_total]. Qed.
Print Assumptions C61_names.
Example C61_names_ex : classString cNSM = Ok (bytes "NSM") /\ classString cNI = Ok (bytes "NI") /\ classString 29 = Ok (bytes "bidi_class(29)").
Proof. vm_compute. auto. Qed.
(* Different classes have different names: for all values of a Go uint, and for all token types (int8). *)
Theorem C61_distinct :
  (forall c d, 0 <= c < 2 ^ 64 -> 0 <= d < 2 ^ 64 -> classString c = classString d -> c = d) /\
  (map tokenTypeString [0; 1; 2; 3; 4; 5] = map Ok token_names /\ forall i j, - 128 <= i < 128 -> - 128 <= j < 128 -> tokenTypeString i = tokenTypeString j -> i = j).
Proof. split; [exact classString_inj|]. split; [exact tokens_named|exact tokenTypeString_inj]. Qed.
Print Assumptions C61_distinct.
(* From the text of resolved levels, and from that of a run, everything can be read back but the contexts and the
   isolates inside: boundaries and classes of all scraps, direction and length of the run. *)
Theorem C61_levels : forall a b, Forall posn (lv_scraps a) -> Forall posn (lv_scraps b) ->
  (exists t, ResolvedLevelsString a = Ok t) /\ (ResolvedLevelsString a = ResolvedLevelsString b -> map seen (lv_scraps a) = map seen (lv_scraps b)).
Proof. intros a b A B. split; [now apply levelsString_total|now apply levelsString_inj]. Qed.
Print Assumptions C61_levels.
Theorem C61_runs : forall r q, Forall posn (r_scraps r) -> Forall posn (r_scraps q) -> 0 <= r_len r < 2 ^ 63 -> 0 <= r_len q < 2 ^ 63 ->
  (exists t, runString r = Ok t) /\
  (runString r = runString q -> r_dir r = r_dir q /\ r_len r = r_len q /\ map seen (r_scraps r) = map seen (r_scraps q)).
Proof. intros r q R Q LR LQ. split; [now apply runString_total|now apply runString_inj]. Qed.
Print Assumptions C61_runs.
Definition two : list scrap := [mks cL 0 5 dc0 []; mks cR 5 12 dc0 []].
Example C61_levels_ex : Forall posn two /\ ResolvedLevelsString (mklv L2R two) = Ok (bytes "[0-L-5] [5-R-12] ") /\
  runString (mkrun R2L 7 [mks cR 5 12 dc0 []]) = Ok (bytes "(R2L 7 5" ++ [226; 128; 166] ++ bytes "12|R)").
Proof. split; [|vm_compute; auto]. unfold two. repeat constructor; cbn [sl sr clz]; try lia; unfold known; vm_compute; tauto. Qed.
(* The text of a scrap tells its class, its position unless it is empty, its end unless it is a bracket. *)
Theorem C61_scrap : forall s q, posn s -> posn q -> sl s <= sr s -> sl q <= sr q -> scrapString s = scrapString q -> shape_of s = shape_of q.
Proof. exact scrapString_shape. Qed.
Print Assumptions C61_scrap.
Example C61_scrap_ex : scrapString (mks cWS 3 4 dc0 []) = Ok (bytes "[3.WS]") /\ scrapString (mks cWS 3 5 dc0 []) = Ok (bytes "[3-WS-5]") /\ scrapString (mks cPDI 3 3 dc0 []) = Ok (bytes "|PDI|").
Proof. vm_compute. auto. Qed.

(* ---- C62: contexts for widths ---- *)
Section Oracles.
Context (Zzzz : Z) (script_of : Z -> Z) (asian_script : Z -> bool) (matches : Z -> bool).
Context (emoji : Z -> bool) (kind_of : Z -> kind) (Latn Hant en_US zh_Hant : Z).
Notation W := (Width Zzzz script_of asian_script matches emoji kind_of Latn en_US).
Notation asian := (east_asian Zzzz script_of asian_script matches).
(* the same results, apart from the value of the context afterwards *)
Definition value (r : res (Z * option context)) : res Z := let* (w, _) := r in Ok w.

(* The result depends on the context only through its being East Asian. *)
Lemma same_width : forall n g c d, asian c = asian d -> value (W (S n) g c) = value (W (S n) g d).
Proof.
  intros n g c d E. rewrite !width_value. destruct g as [|b t]; [reflexivity|]. destruct (RuneStart b); [|reflexivity]. destruct (fst (DecodeRune (b :: t)) =? RuneError); [reflexivity|].
  cbn [value rbind]. f_equal. unfold gw, graphemeWidth. destruct (DecodeRune (b :: t)) as [r u]. destruct (emoji r); [reflexivity|]. now rewrite !resolver_asian, E.
Qed.
(* The context from the environment is like one with nothing but the locale filled in, "en-US" if there is none. *)
Theorem C62_environment : forall n g detected,
  let locale := match detected with Some l => l | None => en_US end in
  let c := ContextFromEnvironment Zzzz script_of asian_script matches en_US detected in
  ForceEastAsian c = false /\ Locale c = locale /\
  value (W (S n) g (Some c)) = value (W (S n) g (Some (mkctx false Zzzz locale None))).
Proof.
  intros n g detected locale c. split; [reflexivity|split; [reflexivity|]]. apply same_width. unfold c. unfold east_asian. cbn [ContextFromEnvironment findResolver resolve Script Locale ForceEastAsian]. fold locale. rewrite Z.eqb_refl.
  replace (if script_of locale =? Zzzz then script_of locale else script_of locale) with (script_of locale) by (destruct (script_of locale =? Zzzz); reflexivity).
  destruct (asian_script (script_of locale)); [reflexivity|]. destruct (matches locale); reflexivity.
Qed.
(* The predefined contexts are like contexts with the same fields, if package language knows Latin and English not to
   be East Asian; no context is like the Latin one. *)
Theorem C62_predefined : forall n g, asian_script Latn = false -> matches en_US = false -> Latn <> Zzzz ->
  value (W (S n) g (Some (makeEastAsianContext Hant zh_Hant))) = value (W (S n) g (Some (mkctx true Hant zh_Hant None))) /\
  value (W (S n) g (Some (makeLatinContext Latn en_US))) = value (W (S n) g (Some (mkctx false Latn en_US None))) /\
  value (W (S n) g None) = value (W (S n) g (Some (makeLatinContext Latn en_US))) /\
  ForceEastAsian (makeLatinContext Latn en_US) = false /\ ForceEastAsian (makeEastAsianContext Hant zh_Hant) = true.
Proof.
  intros n g A M L. assert (Z : (Latn =? Zzzz) = false) by (now apply Z.eqb_neq). split; [|split; [|split; [|split; reflexivity]]]; apply same_width; unfold east_asian; cbn [makeEastAsianContext makeLatinContext resolve ForceEastAsian Script Locale]; [reflexivity| |reflexivity].
  now rewrite Z, A, M.
Qed.
(* A context that has been used before keeps its resolver: whatever a client fills in later has no effect. *)
Theorem C62_reuse_refuted : forall n g h c force script locale w c',
  W (S n) g (Some c) = Ok (w, Some c') -> resolve c' <> None ->
  value (W (S n) h (Some (refill force script locale c'))) = value (W (S n) h (Some c')).
Proof.
  intros n g h c force script locale w c' _ R. apply same_width. unfold refill, east_asian. destruct c' as [f s l [[]|]]; cbn in *; [reflexivity|reflexivity|contradiction].
Qed.
End Oracles.
Print Assumptions C62_environment.
Print Assumptions C62_predefined.
Print Assumptions C62_reuse_refuted.
(* the letter alpha (ambiguous): narrow with an empty context, and still so when the context is made East Asian; with a
   new context it is wide *)
Example C62_reuse_ex :
  let w := Width 0 (fun x => x) (fun _ => false) (fun _ => false) (fun _ => false) kind_ex 1 2 9 (EncodeRune 945) in
  exists c', w (Some (mkctx false 0 7 None)) = Ok (1, Some c') /\ resolve c' <> None /\
    value (w (Some (refill true 0 7 c'))) = Ok 1 /\ value (w (Some (mkctx true 0 7 None))) = Ok 2.
Proof. eexists. split; [vm_compute; reflexivity|]. split; [discriminate|]. vm_compute. auto. Qed.
Example C62_environment_ex :
  let w := Width 0 (fun x => x + 10) (fun s => s =? 13) (fun _ => false) (fun _ => false) kind_ex 1 2 9 (EncodeRune 945) in
  let env := ContextFromEnvironment 0 (fun x => x + 10) (fun s => s =? 13) (fun _ => false) 2 in
  value (w (Some (env (Some 3)))) = Ok 2 /\ value (w (Some (env (Some 4)))) = Ok 1 /\ value (w (Some (env None))) = Ok 1.
Proof. vm_compute. auto. Qed.
