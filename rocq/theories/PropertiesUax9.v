(* PropertiesUax9.v -- C36: the classes of the scraps; C47: the resolved classes are those of UAX#9. *)
From Coq Require Import List ZArith Lia Bool.
From Verif Require Import Base Scrap Brackets Trie Rules RuleProofs Reorder ReorderSpec ReorderProofs Scanner ScannerProofs PropertiesScanner Resolver ResolverProofs ResolverFlat ResolverText PropertiesResolver Uax9Spec Uax9Proofs Uax9Resolve Uax9Text.
Import ListNotations.
Open Scope Z_scope.

(* A table in which every character is its own class. *)
Definition tabC (r : Z) : Z * Z := (if (0 <=? r) && (r <=? cPDI) then r else cON, 0).
Lemma tabC_ok : props_ok tabC.
Proof.
  intros r. unfold tabC. cbn [fst]. destruct (Z.leb_spec 0 r); [|split; discriminate]. destruct (Z.leb_spec r cPDI); cbn [andb]; [lia|split; discriminate].
Qed.
Definition rtl_mode : mode := mkmode true false false.

(* ---- C36 ---- *)

(* For the texts of C30 the scanner sends the maximal runs of the classes of the characters after the
   rules W1 and W3 of UAX#9, all neutrals having the class NI; brackets are sent one by one. *)
Theorem C36_classes_partial :
  forall md props upper rtl input r len rest,
    props_ok props -> lens_ok input -> total (para md props input) < 2 ^ 32 ->
    para md props input = (r, len) :: rest -> eff md props upper r <> cNSM -> (rtl = false -> m_r2l md = false) ->
    calm rtl cL cNULL (classes_of md props upper (para md props input)) = true ->
    exists ss, Scan md props upper None input = Ok (ss ++ [stopper]) /\
      map (fun s => (clz s, sr s - sl s)) ss =
        runs_of bracket_class
          (combine (map norm (W1 cL (classes_of md props upper (para md props input)))) (map snd (para md props input))).
Proof. exact scan_runs. Qed.
Print Assumptions C36_classes_partial.

Definition text9 : list Z := [cL; cWS; cON; cEN; cCS; cEN; cNSM; cS; cR; cAL; cNSM; cES; cL].
Example C36_classes_ex :
  calm true cL cNULL (classes_of plain tabC noupper (para plain tabC (bytes text9))) = true /\
  runs_of bracket_class (combine (map norm (W1 cL (classes_of plain tabC noupper (bytes text9)))) (map snd (bytes text9))) =
    [(cL, 1); (cNI, 2); (cEN, 1); (cCS, 1); (cEN, 2); (cNI, 1); (cR, 3); (cES, 1); (cL, 1)].
Proof. split; vm_compute; reflexivity. Qed.

(* ---- C47 ---- *)

(* For every paragraph in which the classes L, R, AL, EN, ES, ET, CS, S, WS, ON and NSM occur, the first
   one not being NSM; in which a European number occurs only if no AL is before it and the last strong
   class before it is L (or none, in a left-to-right paragraph); and in which the groups of neutrals are tidy (Uax9Text.v): the resolver
   terminates, and every byte gets the class which the rules W1 to W7, N1 and N2 give to its character. *)
Theorem C47_resolved_partial :
  forall md props upper input r len rest n,
    props_ok props -> lens_ok input -> total (para md props input) < 2 ^ 32 ->
    para md props input = (r, len) :: rest -> eff md props upper r <> cNSM ->
    Forall (fun c => In c [cNSM; cL; cR; cAL; cEN; cES; cET; cCS; cS; cWS; cON]) (classes_of md props upper (para md props input)) ->
    calm true (outer md) cNULL (classes_of md props upper (para md props input)) = true ->
    tidy (outer md) (classes_of md props upper (para md props input)) = true ->
    (rounds (S (length input)) <= n)%nat ->
    exists lv, ResolveParagraph n md props upper None input = Ok (lv, []) /\
      flat_map (fun s => repeat (clz s) (Z.to_nat (sr s - sl s))) (lv_scraps lv) =
        spread (uax9 (outer md) (classes_of md props upper (para md props input))) (map snd (para md props input)).
Proof.
  intros md props upper input r len rest n A B C D E F G H I.
  destruct (resolve_uax9 md props upper input r len rest n A B C D E F G H I) as (lv & X & _ & Y & _). eauto.
Qed.
Print Assumptions C47_resolved_partial.

Definition classes9 (md : mode) (cs : list Z) : list Z := classes_of md tabC noupper (para md tabC (bytes cs)).
Definition final9 (md : mode) (cs : list Z) : option (list Z) :=
  match ResolveParagraph (rounds (S (length cs))) md tabC noupper None (bytes cs) with
  | Ok (lv, _) => Some (flat_map (fun s => repeat (clz s) (Z.to_nat (sr s - sl s))) (lv_scraps lv))
  | _ => None
  end.
Definition text47 : list Z := [cL; cES; cWS; cEN; cCS; cEN; cNSM; cET; cWS; cR; cON; cWS; cR; cWS; cL; cCS; cET; cEN; cS; cWS; cR; cCS; cAL].
Example C47_resolved_ex :
  classes9 rtl_mode text47 = text47 /\ calm true cR cNULL text47 = true /\ tidy cR text47 = true /\
  calm true cL cNULL text47 = true /\ tidy cL text47 = true /\
  final9 rtl_mode text47 =
    Some [cL; cL; cL; cL; cL; cL; cL; cL; cR; cR; cR; cR; cR; cR; cL; cL; cL; cL; cR; cR; cR; cR; cR] /\
  final9 plain text47 =
    Some [cL; cL; cL; cL; cL; cL; cL; cL; cL; cR; cR; cR; cR; cL; cL; cL; cL; cL; cL; cL; cR; cR; cR].
Proof. repeat split; vm_compute; reflexivity. Qed.

(* The runs delivered by Reorder for these paragraphs: read position by position they are in the logical
   order, each with the direction that UAX#9 gives to its character; adjacent runs differ in
   direction, and no run is empty. *)
Theorem C47_runs_partial :
  forall md props upper input r len rest n,
    props_ok props -> lens_ok input -> total (para md props input) < 2 ^ 32 ->
    para md props input = (r, len) :: rest -> eff md props upper r <> cNSM ->
    Forall (fun c => In c [cNSM; cL; cR; cAL; cEN; cES; cET; cCS; cS; cWS; cON]) (classes_of md props upper (para md props input)) ->
    calm true (outer md) cNULL (classes_of md props upper (para md props input)) = true ->
    tidy (outer md) (classes_of md props upper (para md props input)) = true ->
    (rounds (S (length input)) <= n)%nat ->
    exists lv runs, ResolveParagraph n md props upper None input = Ok (lv, []) /\ Reorder lv = Some runs /\
      Forall run_ok runs /\ alternating None runs /\
      flat_map run_view runs = combine (zrange 0 (total (para md props input)))
        (map (fun c => c =? cR) (spread (uax9 (outer md) (classes_of md props upper (para md props input))) (map snd (para md props input)))).
Proof. exact runs_uax9. Qed.
Print Assumptions C47_runs_partial.
Example C47_runs_ex :
  match ResolveParagraph (rounds 24) plain tabC noupper None (bytes text47) with
  | Ok (lv, _) => match Reorder lv with
                  | Some runs => map (fun r => (r_dir r, r_len r)) runs = [(L2R, 9); (R2L, 4); (L2R, 7); (R2L, 3)]
                  | None => False
                  end
  | _ => False
  end.
Proof. vm_compute. reflexivity. Qed.

(* ---- where the resolved classes differ from UAX#9 ---- *)

(* The strong class before the text is taken to be L, also in a right-to-left paragraph: a number at its
   start becomes L, and so does the neutral after it. *)
Theorem C47_start_refuted :
  final9 rtl_mode [cEN; cWS; cL] = Some [cL; cL; cL] /\ uax9 cR [cEN; cWS; cL] = [cEN; cR; cL].
Proof. split; vm_compute; reflexivity. Qed.
Print Assumptions C47_start_refuted.
Example C47_start_ex : classes9 rtl_mode [cEN; cWS; cL] = [cEN; cWS; cL] /\ calm true cR cNULL [cEN; cWS; cL] = false.
Proof. split; reflexivity. Qed.

(* W2: a European number directly after AL does not become an Arabic number ... *)
Theorem C47_W2_adjacent_refuted :
  final9 rtl_mode [cAL; cEN] = Some [cR; cEN] /\ uax9 cR [cAL; cEN] = [cR; cAN].
Proof. split; vm_compute; reflexivity. Qed.
Print Assumptions C47_W2_adjacent_refuted.
Example C47_W2_adjacent_ex : classes9 rtl_mode [cAL; cEN] = [cAL; cEN].
Proof. reflexivity. Qed.

(* ... and once an AL has occurred, a number after L and a neutral is no longer in left-to-right context. *)
Theorem C47_W2_forever_refuted :
  final9 rtl_mode [cAL; cL; cWS; cEN] = Some [cR; cL; cR; cEN] /\ uax9 cR [cAL; cL; cWS; cEN] = [cR; cL; cL; cL].
Proof. split; vm_compute; reflexivity. Qed.
Print Assumptions C47_W2_forever_refuted.
Example C47_W2_forever_ex : classes9 rtl_mode [cAL; cL; cWS; cEN] = [cAL; cL; cWS; cEN].
Proof. reflexivity. Qed.

(* W4 applies to a single separator only; the code joins equal classes before. *)
Theorem C47_W4_refuted :
  final9 plain [cAN; cCS; cCS; cAN] = Some [cAN; cAN; cAN; cAN] /\ uax9 cL [cAN; cCS; cCS; cAN] = [cAN; cR; cR; cAN].
Proof. split; vm_compute; reflexivity. Qed.
Print Assumptions C47_W4_refuted.
Example C47_W4_ex : classes9 plain [cAN; cCS; cCS; cAN] = [cAN; cCS; cCS; cAN].
Proof. reflexivity. Qed.

(* N1: neutrals between two Arabic numbers get the direction R. *)
Theorem C47_N1_numbers_refuted :
  final9 plain [cL; cAN; cWS; cAN; cL] = Some [cL; cAN; cL; cAN; cL] /\ uax9 cL [cL; cAN; cWS; cAN; cL] = [cL; cAN; cR; cAN; cL].
Proof. split; vm_compute; reflexivity. Qed.
Print Assumptions C47_N1_numbers_refuted.
Example C47_N1_numbers_ex : classes9 plain [cL; cAN; cWS; cAN; cL] = [cL; cAN; cWS; cAN; cL].
Proof. reflexivity. Qed.

(* N1: a group of neutrals that ends with a separator is not taken as one; this is what [tidy] excludes. *)
Theorem C47_N1_group_refuted :
  final9 rtl_mode [cL; cWS; cES; cL] = Some [cL; cR; cR; cL] /\ uax9 cR [cL; cWS; cES; cL] = [cL; cL; cL; cL].
Proof. split; vm_compute; reflexivity. Qed.
Print Assumptions C47_N1_group_refuted.
Example C47_N1_group_ex : classes9 rtl_mode [cL; cWS; cES; cL] = [cL; cWS; cES; cL] /\ tidy cR [cL; cWS; cES; cL] = false /\
  tidy cR [cL; cES; cWS; cL] = true /\ final9 rtl_mode [cL; cES; cWS; cL] = Some [cL; cL; cL; cL].
Proof. repeat split; vm_compute; reflexivity. Qed.
