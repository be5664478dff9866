(* PropertiesScanner.v -- C36: the scraps of the bidi scanner tile the text. *)
From Coq Require Import List ZArith Lia Bool.
From Verif Require Import Base Scrap Brackets ReorderSpec Utf8 Scanner ScannerProofs TextScan.
Import ListNotations.
Open Scope Z_scope.

(* For every paragraph of less than 4 GB whose first character is not a non-spacing mark, every table
   of bidi properties, every mode and every markup function, the scanner terminates without panic; it
   sends scraps which tile the text, none of them of class NULL, and then the stopper. *)
Theorem C36_tiles_partial :
  forall md props upper markup input r len rest,
    props_ok props -> lens_ok input -> total (para md props input) < 2 ^ 32 ->
    para md props input = (r, len) :: rest -> eff md props upper r <> cNSM ->
    exists ss, Scan md props upper markup input = Ok (ss ++ [stopper]) /\
      tiles 0 ss (total (para md props input)) /\ Forall (fun s => clz s <> cNULL) ss.
Proof. exact scan_text. Qed.
Print Assumptions C36_tiles_partial.

(* A small table: a, b are L; A is R; 0 is EN; a blank; brackets; U+0301 is NSM; a line feed; U+2066
   and U+2069 are LRI and PDI. *)
Definition tab1 (r : Z) : Z * Z :=
  if r =? 65 then (cR, 0) else if r =? 48 then (cEN, 0) else if r =? 32 then (cWS, 0)
  else if r =? 40 then (cON, 1) else if r =? 41 then (cON, 2) else if r =? 769 then (cNSM, 0)
  else if r =? 10 then (cB, 0) else if r =? 8294 then (cLRI, 0) else if r =? 8297 then (cPDI, 0)
  else if r =? 65533 then (cON, 0) else (cL, 0).
Lemma tab1_ok : props_ok tab1.
Proof.
  intros r. unfold tab1. do 10 (destruct (r =? _); [split; discriminate|]). split; discriminate.
Qed.
Definition plain : mode := mkmode false false false.
Definition noupper (r : Z) : bool := false.
Definition text1 : list Z := [97; 769; 65; 32; 40; 48; 41; 8294; 98; 8297; 10; 97].
Example C36_tiles_ex :
  props_ok tab1 /\ lens_ok (ScanRunes (encode text1)) /\ total (para plain tab1 (ScanRunes (encode text1))) = 15 /\
  eff plain tab1 noupper 97 <> cNSM /\
  match Scan plain tab1 noupper None (ScanRunes (encode text1)) with
  | Ok ss => map (fun s => (clz s, sl s, sr s)) ss =
      [(cL, 0, 3); (cR, 3, 4); (cNI, 4, 5); (cBRACKO, 5, 6); (cEN, 6, 7); (cBRACKC, 7, 8); (cLRI, 8, 11);
       (cL, 11, 12); (cPDI, 12, 15); (cNULL, 0, 0)]
  | _ => False
  end.
Proof.
  split; [exact tab1_ok|]. rewrite ScanRunes_encode by (repeat (constructor; [reflexivity|]); constructor).
  split; [apply encoded_ok|]. split; [vm_compute; reflexivity|]. split; [discriminate|]. vm_compute. reflexivity.
Qed.

(* For well-formed UTF-8 without paragraph separators the scraps tile the bytes of the whole text. *)
Theorem C36_bytes_partial :
  forall md props upper markup r rs,
    props_ok props -> Forall (fun r => scalar r = true) (r :: rs) ->
    Forall (fun r => m_ignore md = true \/ fst (props r) <> cB) (r :: rs) ->
    zlen (encode (r :: rs)) < 2 ^ 32 -> eff md props upper r <> cNSM ->
    exists ss, Scan md props upper markup (ScanRunes (encode (r :: rs))) = Ok (ss ++ [stopper]) /\
      tiles 0 ss (zlen (encode (r :: rs))) /\ Forall (fun s => clz s <> cNULL) ss.
Proof.
  intros md props upper markup r rs P S B L E. rewrite ScanRunes_encode by auto.
  pose proof (encoded_para md props (r :: rs) B) as EP. pose proof (encoded_total (r :: rs)) as ET.
  destruct (scan_text md props upper markup (map (fun r => (r, zlen (EncodeRune r))) (r :: rs)) r
    (zlen (EncodeRune r)) (map (fun r => (r, zlen (EncodeRune r))) rs)) as (ss & A & T & N); auto.
  - apply encoded_ok.
  - rewrite EP, ET. exact L.
  - exists ss. rewrite EP, ET in T. auto.
Qed.
Print Assumptions C36_bytes_partial.
Example C36_bytes_ex : let rs := [97; 769; 65; 32] in
  Forall (fun r => scalar r = true) rs /\ Forall (fun r => m_ignore plain = true \/ fst (tab1 r) <> cB) rs /\
  zlen (encode rs) = 5.
Proof.
  cbv zeta. split; [repeat (constructor; [reflexivity|]); constructor|]. split; [|reflexivity].
  repeat (constructor; [right; discriminate|]). constructor.
Qed.

(* A text whose first character is a non-spacing mark loses it: either nothing but an empty scrap of
   class NULL is sent, or the scraps begin after the mark. *)
Theorem C36_leading_mark_refuted :
  forall md props upper markup input r len rest,
    props_ok props -> lens_ok input -> total (para md props input) < 2 ^ 32 ->
    para md props input = (r, len) :: rest -> eff md props upper r = cNSM ->
    exists ss, Scan md props upper markup input = Ok (ss ++ [stopper]) /\
      ((exists x, ss = [x] /\ clz x = cNULL) \/
       exists k, len <= k /\ tiles k ss (total (para md props input)) /\ Forall (fun s => clz s <> cNULL) ss).
Proof. exact scan_leading_mark. Qed.
Print Assumptions C36_leading_mark_refuted.
Example C36_leading_mark_ex :
  para plain tab1 (ScanRunes (encode [769; 97])) = [(769, 2); (97, 1)] /\ eff plain tab1 noupper 769 = cNSM /\
  Scan plain tab1 noupper None (ScanRunes (encode [769; 97])) = Ok [mks cL 2 3 dc0 []; stopper].
Proof. vm_compute. auto. Qed.

(* Ill-formed UTF-8: the positions are not those of the bytes of the text. *)
Theorem C36_invalid_bytes_refuted :
  Scan plain tab1 noupper None (ScanRunes [255; 97]) = Ok [mks cNI 0 3 dc0 []; mks cL 3 4 dc0 []; stopper].
Proof. vm_compute. reflexivity. Qed.
Print Assumptions C36_invalid_bytes_refuted.
Example C36_invalid_bytes_ex :
  Scan plain tab1 noupper None (ScanRunes [32; 97]) = Ok [mks cNI 0 1 dc0 []; mks cL 1 2 dc0 []; stopper].
Proof. vm_compute. reflexivity. Qed.

(* The empty text: an empty scrap of class NULL, then the stopper. *)
Theorem C36_empty_partial :
  forall md props upper markup input, lens_ok input -> para md props input = [] ->
    Scan md props upper markup input = Ok [initialOuterScrap md false; stopper].
Proof. exact scan_empty. Qed.
Print Assumptions C36_empty_partial.
Example C36_empty_ex : para plain tab1 [] = [] /\ para plain tab1 [(10, 1); (97, 1)] = [] /\
  clz (initialOuterScrap plain false) = cNULL.
Proof. auto. Qed.
