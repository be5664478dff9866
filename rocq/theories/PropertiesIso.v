(* PropertiesIso.v -- C47 for texts with isolates. *)
From Coq Require Import List ZArith Lia Bool.
From Verif Require Import Base Scrap Brackets Trie Rules RuleProofs Reorder ReorderSpec ReorderProofs SplitProofs Utf8 Scanner ScannerProofs TextScan PropertiesScanner Resolver ResolverProofs ResolverFlat ResolverText ResolverFuel PropertiesResolver Uax9Spec Uax9Text ResolverNested NestedText ScanContext PropertiesNested Uax9IsoSpec Uax9IsoText.
Import ListNotations.
Open Scope Z_scope.

(* Left-to-right paragraphs with isolates (LRI and RLI, each with its PDI): every byte gets the class that
   W1 to W7, N1 and N2 give it in its isolating run sequence, where an isolate is neutral in the sequence
   around it.  Isolates may be nested in LRI to any depth, but not in RLI; European numbers follow L (quiet),
   groups of neutrals are tidy at every level, no isolate directly follows another one, and an initiator
   with k initiators before it is followed by 3k+2 runs. *)
Theorem C47_isolates_partial :
  forall md props upper input r len rest its n,
    props_ok props -> lens_ok input -> total (para md props input) < 2 ^ 32 ->
    para md props input = (r, len) :: rest -> eff md props upper r <> cNSM -> m_r2l md = false ->
    map (fun x => (eff md props upper (fst x), snd x)) (para md props input) = flat_map flat its ->
    forallb (shaped true) its = true -> tidy_items cL its = true ->
    quiet true cL cNULL (classes_of md props upper (para md props input)) = true ->
    apart (map fst (runs_of solo_class (chars2 md props upper cNULL (para md props input)))) = true ->
    roomy 0 (map fst (runs_of solo_class (chars2 md props upper cNULL (para md props input)))) = true ->
    (rounds (S (length input)) <= n)%nat ->
    exists lv, ResolveParagraph n md props upper None input = Ok (lv, []) /\
      resolved_tree md (total (para md props input)) (spots 0 (chars2 md props upper cNULL (para md props input))) lv /\
      map (class_at (lv_scraps lv)) (zrange 0 (total (para md props input))) = map Some (uax9_iso cL its).
Proof.
  intros md props upper input r len rest its n A B C D E F G H I J K L M.
  destruct (resolve_uax9_iso md props upper input r len rest its n A B C D E F G H I J K L M) as (lv & X & Y & V & _). eauto.
Qed.
Print Assumptions C47_isolates_partial.

(* a<A A>a A=A=A<0A=A a a, where < is LRI, > is RLI, = is PDI *)
Definition input4 := bytes [97; 60; 65; 32; 65; 62; 97; 32; 65; 61; 65; 61; 65; 60; 48; 65; 61; 65; 32; 97; 32; 97].
Definition items4 : list item :=
  [Char cL 1; Isolate cLRI 1 [Char cR 1; Char cWS 1; Char cR 1; Isolate cRLI 1 [Char cL 1; Char cWS 1; Char cR 1] 1; Char cR 1] 1; Char cR 1;
   Isolate cLRI 1 [Char cEN 1; Char cR 1] 1; Char cR 1; Char cWS 1; Char cL 1; Char cWS 1; Char cL 1].
Example C47_isolates_ex :
  map (fun x => (eff plain tab3 noupper (fst x), snd x)) (para plain tab3 input4) = flat_map flat items4 /\
  forallb (shaped true) items4 = true /\ tidy_items cL items4 = true /\
  quiet true cL cNULL (classes_of plain tab3 noupper (para plain tab3 input4)) = true /\
  apart (map fst (runs_of solo_class (chars2 plain tab3 noupper cNULL (para plain tab3 input4)))) = true /\
  roomy 0 (map fst (runs_of solo_class (chars2 plain tab3 noupper cNULL (para plain tab3 input4)))) = true /\
  uax9_iso cL items4 = [cL; cL; cR; cR; cR; cR; cL; cR; cR; cR; cR; cL; cR; cR; cL; cR; cR; cR; cL; cL; cL; cL] /\
  match ResolveParagraph 300 plain tab3 noupper None input4 with
  | Ok (lv, _) => map (class_at (lv_scraps lv)) (zrange 0 22) = map Some (uax9_iso cL items4)
  | _ => False
  end.
Proof. repeat match goal with |- _ /\ _ => split end; vm_compute; reflexivity. Qed.
