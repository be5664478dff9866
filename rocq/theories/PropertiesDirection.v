(* PropertiesDirection.v -- C75: the direction at a byte position. *)
From Coq Require Import List ZArith Lia Bool.
From Verif Require Import Base Scrap Brackets Bd16Spec BracketProofs Trie Rules RuleProofs Reorder ReorderSpec ReorderProofs SplitProofs Utf8 Scanner ScannerProofs TextScan PropertiesScanner Resolver ResolverProofs ResolverFlat ResolverText ResolverFuel PropertiesResolver Uax9Spec Uax9N0Spec Uax9Resolve Uax9Text ResolverNested NestedText ScanContext PropertiesNested Uax9IsoSpec Uax9IsoText PropertiesIso PropertiesUax9 BracketText PropertiesContext Uax9BracketText DirectionProofs.
Import ListNotations.
Open Scope Z_scope.

(* Any levels that cover a text: the direction is that of the class of the scrap with this position, and
   left-to-right outside of the text. *)
Theorem C75_scrap :
  forall ss lo hi, tiles lo ss hi ->
    (forall s p, In s ss -> sl s <= p < sr s ->
       DirectionAt ss p = existsb (Z.eqb (clz s)) [cR; cRLI]) /\
    (forall p, p < lo \/ hi <= p -> DirectionAt ss p = L2R).
Proof.
  intros ss lo hi T. split; [|intros p; apply direction_out; exact T]. intros s p I P. rewrite (direction_in ss lo hi s p T I P).
  unfold dirFromClass, existsb. destruct (Z.eqb_spec (clz s) cL) as [->|_]; [reflexivity|]. destruct (Z.eqb_spec (clz s) cLRI) as [->|_]; [reflexivity|]. cbn [orb].
  destruct (Z.eqb_spec (clz s) cR) as [->|_]; [reflexivity|]. destruct (Z.eqb_spec (clz s) cRLI) as [->|_]; [reflexivity|]. cbn [orb]. destruct (_ || _); reflexivity.
Qed.
Print Assumptions C75_scrap.
Definition sc75 (c l r : Z) : scrap := mks c l r dc0 [].
Definition para75 : list scrap := [sc75 cRLI 0 0; sc75 cL 0 3; sc75 cR 3 5; sc75 cEN 5 7; sc75 cPDI 7 7].
Example C75_scrap_ex : tiles 0 para75 7 /\ map (DirectionAt para75) (zrange (-1) 9) = [L2R; L2R; L2R; L2R; R2L; R2L; L2R; L2R; L2R; L2R].
Proof. split; [cbn; lia|reflexivity]. Qed.

(* Paragraphs without isolates: it is the direction of the run of Reorder with this position, for every
   position, exactly if the text around is left-to-right or every scrap has a class with a direction of its
   own (L, R, EN, AN). *)
Theorem C75_runs_partial :
  forall rl lo hi runs, ReorderSpec.flat (lv_scraps rl) -> scraps_ok (lv_scraps rl) -> tiles lo (lv_scraps rl) hi -> Reorder rl = Some runs ->
    ((forall r p, In r runs -> In p (positions (r_scraps r)) -> DirectionAt (lv_scraps rl) p = r_dir r) <->
     (outer_dir (rev_blocks (opp (lv_emb rl)) [] (lv_scraps rl)) (lv_emb rl) = L2R \/
      Forall (fun s => sl s < sr s -> decided (clz s) = true) (lv_scraps rl))).
Proof. exact direction_runs. Qed.
Print Assumptions C75_runs_partial.
Example C75_runs_ex : ReorderSpec.flat para75 /\ scraps_ok para75 /\ tiles 0 para75 7 /\
  Reorder (mklv R2L para75) = Some [mkrun L2R 3 [sc75 cL 0 3]; mkrun R2L 2 [sc75 cR 3 5]; mkrun L2R 2 [sc75 cEN 5 7]] /\
  Forall (fun s => sl s < sr s -> decided (clz s) = true) para75.
Proof.
  split; [repeat constructor|]. split; [repeat (constructor; [unfold proper; cbn; repeat split; (lia || discriminate)|]); constructor|]. split; [cbn; lia|].
  split; [reflexivity|]. repeat (constructor; [cbn; (lia || reflexivity)|]). constructor.
Qed.

(* A right-to-left paragraph with a character of class BN between letters: it is in a right-to-left run, but
   the direction at its position is left-to-right. *)
Theorem C75_neutral_refuted :
  exists lv, ResolveParagraph (rounds 4) rtl_mode tabC noupper None (bytes [cR; cBN; cR]) = Ok (lv, []) /\
    Reorder lv = Some [mkrun R2L 3 [mks cR 0 3 (sctx (nth 1 (lv_scraps lv) scrap0)) []]] /\
    map (DirectionAt (lv_scraps lv)) [0; 1; 2] = [R2L; L2R; R2L].
Proof. eexists. split; [vm_compute; reflexivity|]. split; vm_compute; reflexivity. Qed.
Print Assumptions C75_neutral_refuted.
Example C75_neutral_ex : decided cBN = false /\ classes9 rtl_mode [cR; cBN; cR] = [cR; cBN; cR].
Proof. split; reflexivity. Qed.

(* From the text: for the paragraphs of C47 it is the direction that UAX#9 gives to the character. *)
Theorem C75_uax9_partial :
  forall md props upper input r len rest n,
    props_ok props -> lens_ok input -> total (para md props input) < 2 ^ 32 ->
    para md props input = (r, len) :: rest -> eff md props upper r <> cNSM ->
    Forall (fun c => In c [cNSM; cL; cR; cAL; cEN; cES; cET; cCS; cS; cWS; cON]) (classes_of md props upper (para md props input)) ->
    calm true (outer md) cNULL (classes_of md props upper (para md props input)) = true ->
    tidy (outer md) (classes_of md props upper (para md props input)) = true ->
    (rounds (S (length input)) <= n)%nat ->
    exists lv, ResolveParagraph n md props upper None input = Ok (lv, []) /\
      map (DirectionAt (lv_scraps lv)) (zrange 0 (total (para md props input))) =
        map (fun c => c =? cR) (spread (uax9 (outer md) (classes_of md props upper (para md props input))) (map snd (para md props input))).
Proof.
  intros md props upper input r len rest n A B C D E F G H I.
  destruct (resolve_uax9 md props upper input r len rest n A B C D E F G H I) as (lv & X & Y & P & w & W & FW & _). exists lv. split; [exact X|].
  rewrite <- P. destruct Y as (_ & _ & T & _). apply direction_painted; [exact T|]. rewrite W.
  destruct (initial_fields md) as (I1 & I2 & I3 & _). constructor; [right; right; congruence|]. apply Forall_app. split; [|constructor; [right; right; reflexivity|constructor]].
  eapply Forall_impl; [|exact FW]. cbn beta. tauto.
Qed.
Print Assumptions C75_uax9_partial.
Example C75_uax9_ex :
  match ResolveParagraph (rounds (S (length text47))) rtl_mode tabC noupper None (bytes text47) with
  | Ok (lv, _) => map (DirectionAt (lv_scraps lv)) (zrange 0 23) = map (fun c => c =? cR) (uax9 cR text47)
  | _ => False
  end.
Proof. vm_compute. reflexivity. Qed.

(* The same with brackets. *)
Theorem C75_brackets_partial :
  forall md props upper input r len rest n,
    props_ok props -> lens_ok input -> total (para md props input) < 65536 ->
    para md props input = (r, len) :: rest -> eff md props upper r <> cNSM ->
    Forall (fun c => In c [cNSM; cL; cR; cS; cWS; cON; cBRACKO; cBRACKC]) (classes_of md props upper (para md props input)) ->
    Forall (fun x => 0 < snd x) (para md props input) ->
    let cs := classes_of md props upper (para md props input) in
    let lens := map snd (para md props input) in
    let bs := brackets_of md props upper cNULL 0 (para md props input) in
    let pairs := bd16 uax9BracketPairs canon13 [] bs in
    Forall (fun x => eff md props upper x = cBRACKO /\ is_op x = true \/ eff md props upper x = cBRACKC /\ is_cl x = true) (map fst bs) ->
    no_mix canon13 (map fst bs) (map fst bs) -> bd_fits uax9BracketPairs canon13 [] bs = true ->
    settled (outer md) (combine (weak_rules (outer md) cs) (starts 0 lens)) pairs = true ->
    Uax9BracketText.quiet (outer md) (weak_rules (outer md) cs) (uax9_full (outer md) cs (starts 0 lens) pairs) = true ->
    (rounds (S (length input)) <= n)%nat ->
    exists lv, ResolveParagraph n md props upper None input = Ok (lv, []) /\
      map (DirectionAt (lv_scraps lv)) (zrange 0 (total (para md props input))) =
        map (fun c => c =? cR) (spread (uax9_full (outer md) cs (starts 0 lens) pairs) lens).
Proof.
  intros md props upper input r len rest n A B C D E F G cs lens bs pairs H I J K L M.
  destruct (resolve_uax9_brackets md props upper input r len rest n A B C D E F G H I J K L M) as (lv & X & Y & P & w & W & FW & _). exists lv. split; [exact X|].
  unfold cs, lens, pairs, bs. rewrite <- P. destruct Y as (_ & _ & T & _). apply direction_painted; [exact T|]. rewrite W.
  destruct (initial_fields md) as (I1 & I2 & I3 & _). constructor; [right; right; congruence|]. apply Forall_app. split; [|constructor; [right; right; reflexivity|constructor]].
  eapply Forall_impl; [|exact FW]. cbn beta. tauto.
Qed.
Print Assumptions C75_brackets_partial.
(* a (bA[A])A a *)
Example C75_brackets_ex :
  match ResolveParagraph (rounds 13) plain tab4 noupper None (bytes [97; 32; 40; 98; 65; 91; 65; 93; 41; 65; 32; 97]) with
  | Ok (lv, _) => map (DirectionAt (lv_scraps lv)) (zrange 0 12) = [L2R; L2R; L2R; L2R; R2L; R2L; R2L; R2L; L2R; R2L; L2R; L2R]
  | _ => False
  end.
Proof. vm_compute. reflexivity. Qed.

(* Isolates: every position within an isolate gets the direction that the text around gives to the
   initiator, for all texts of C47_isolates_partial. *)
Theorem C75_isolates :
  forall md props upper input r len rest its n,
    props_ok props -> lens_ok input -> total (para md props input) < 2 ^ 32 ->
    para md props input = (r, len) :: rest -> eff md props upper r <> cNSM -> m_r2l md = false ->
    map (fun x => (eff md props upper (fst x), snd x)) (para md props input) = flat_map flat its ->
    forallb (shaped true) its = true -> tidy_items cL its = true ->
    NestedText.quiet true cL cNULL (classes_of md props upper (para md props input)) = true ->
    apart (map fst (runs_of solo_class (chars2 md props upper cNULL (para md props input)))) = true ->
    roomy 0 (map fst (runs_of solo_class (chars2 md props upper cNULL (para md props input)))) = true ->
    (rounds (S (length input)) <= n)%nat ->
    exists lv, ResolveParagraph n md props upper None input = Ok (lv, []) /\
      map (DirectionAt (lv_scraps lv)) (zrange 0 (total (para md props input))) = map (fun c => c =? cR) (uax9_around cL its).
Proof.
  intros md props upper input r len rest its n A B C D E F G H I J K L M.
  destruct (resolve_uax9_iso md props upper input r len rest its n A B C D E F G H I J K L M) as (lv & X & Y & _ & P & FW). exists lv. split; [exact X|].
  rewrite <- P. destruct Y as (_ & T & _). apply direction_painted; auto.
Qed.
Print Assumptions C75_isolates.
Example C75_isolates_ex :
  uax9_around cL items4 = [cL; cL; cL; cL; cL; cL; cL; cL; cL; cL; cL; cL; cR; cR; cR; cR; cR; cR; cL; cL; cL; cL] /\
  match ResolveParagraph 300 plain tab3 noupper None input4 with
  | Ok (lv, _) => map (DirectionAt (lv_scraps lv)) (zrange 0 22) = map (fun c => c =? cR) (uax9_around cL items4)
  | _ => False
  end.
Proof. split; vm_compute; reflexivity. Qed.

(* So the letters in an isolate get a wrong direction: the text of C47_isolates_ex, where position 2 is a
   right-to-left letter in an isolate between left-to-right letters. *)
Theorem C75_inside_isolate_refuted :
  exists lv runs, ResolveParagraph 300 plain tab3 noupper None input4 = Ok (lv, []) /\ class_at (lv_scraps lv) 2 = Some cR /\
    nth 2 (uax9_iso cL items4) cNULL = cR /\ DirectionAt (lv_scraps lv) 2 = L2R /\
    Reorder lv = Some runs /\ Exists (fun r => In 2 (positions (r_scraps r)) /\ r_dir r = R2L) runs.
Proof.
  eexists. eexists. split; [vm_compute; reflexivity|]. split; [vm_compute; reflexivity|]. split; [vm_compute; reflexivity|]. split; [vm_compute; reflexivity|].
  split; [vm_compute; reflexivity|]. repeat (first [apply Exists_cons_hd; split; [vm_compute; solve [auto 30]|reflexivity]|apply Exists_cons_tl]).
Qed.
Print Assumptions C75_inside_isolate_refuted.
Example C75_inside_isolate_ex : nth 2 (map fst (flat_map flat items4)) cNULL = cR.
Proof. reflexivity. Qed.

(* Cutting a paragraph into lines, with isolates or not, does not change the directions; with the shift the
   positions of the second line count from its beginning. *)
Theorem C75_split :
  forall n rl lo hi at_ sh a b, line lo (lv_scraps rl) hi -> 0 <= lo -> lo <= at_ < hi -> hi < 2 ^ 32 -> Split (S n) rl at_ sh = Some (a, b) ->
    (forall p, p < at_ -> DirectionAt (lv_scraps a) p = DirectionAt (lv_scraps rl) p) /\
    (forall p, at_ <= p -> DirectionAt (lv_scraps b) (if sh then p - at_ else p) = DirectionAt (lv_scraps rl) p).
Proof. exact direction_Split. Qed.
Print Assumptions C75_split.
Example C75_split_ex : exists a b, Split 1 (mklv R2L para75) 4 true = Some (a, b) /\
  map (DirectionAt (lv_scraps a)) (zrange 0 4) = [L2R; L2R; L2R; R2L] /\ map (DirectionAt (lv_scraps b)) (zrange 0 3) = [R2L; L2R; L2R].
Proof. eexists. eexists. split; [reflexivity|]. split; reflexivity. Qed.
