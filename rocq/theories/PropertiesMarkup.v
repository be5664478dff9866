(* PropertiesMarkup.v -- C63: out-of-line Bidi markup. *)
From Coq Require Import List ZArith Lia Bool.
From Verif Require Import Base Scrap Brackets Trie Rules RuleProofs Reorder ReorderSpec ReorderProofs SplitProofs Utf8 Scanner ScannerProofs TextScan PropertiesScanner Resolver ResolverProofs ResolverFlat ResolverText ResolverFuel PropertiesResolver Uax9Spec Uax9Text ResolverNested NestedText PropertiesNested MarkupSpec MarkupProofs.
Import ListNotations.
Open Scope Z_scope.

(* The delimiters add no length, and without them the text is the one given. *)
Theorem C63_same_text : forall f input, Forall (fun x => 0 < snd x) input -> filter (fun x => 0 <? snd x) (woven f 0 input) = input.
Proof. intros f input. apply woven_filter. Qed.
Print Assumptions C63_same_text.
(* Markup of a client: an RLI before the second character, PDI and LRI before the fourth, PDI at the end. *)
Definition answer (p : Z) : Z := if p =? 1 then MarkupRLI else if p =? 3 then MarkupPDI + MarkupLRI else if p =? 5 then MarkupPDI else 0.
Example C63_same_text_ex :
  woven answer 0 (bytes [97; 65; 65; 97; 65]) = [(97, 1); invisible_RLI; (65, 1); (65, 1); invisible_PDI; invisible_LRI; (97, 1); (65, 1); invisible_PDI].
Proof. reflexivity. Qed.

(* For every markup function with the documented answers that has nothing to insert at the start of the text: scanning
   with it sends the same scraps as scanning the text with the delimiters in it, in every mode of the scanner. *)
Theorem C63_scan_partial : forall md props upper f input,
  delimiters_known props upper -> documented f -> f 0 <= 0 ->
  Forall (fun x => 0 < snd x) input -> total (para md props input) < 2 ^ 32 ->
  Scan md props upper (Some f) input = Scan md props upper None (woven f 0 input).
Proof. intros md props upper f input K D Z0 L T. rewrite (scan_markup md props upper f K D input L T). unfold g. now rewrite woven_start. Qed.
Print Assumptions C63_scan_partial.
(* tables with the delimiters of Unicode *)
Definition tab4 (r : Z) : Z * Z := if r =? 8294 then (cLRI, 0) else if r =? 8295 then (cRLI, 0) else if r =? 8297 then (cPDI, 0) else tab1 r.
Example C63_scan_ex :
  delimiters_known tab4 noupper /\ documented answer /\
  match Scan plain tab4 noupper (Some answer) (bytes [97; 65; 65; 97; 65]) with
  | Ok ss => map (fun s => (clz s, sl s, sr s)) ss =
      [(cL, 0, 1); (cRLI, 1, 1); (cR, 1, 3); (cPDI, 3, 3); (cLRI, 3, 3); (cL, 3, 4); (cR, 4, 5); (cPDI, 5, 5); (cNULL, 0, 0)]
  | _ => False
  end.
Proof.
  split; [repeat split|]. split; [|vm_compute; reflexivity].
  intros p. unfold answer. destruct (p =? 1); [right; cbn; auto|]. destruct (p =? 3); [right; cbn; auto 8|]. destruct (p =? 5); [right; cbn; auto|]. left. lia.
Qed.

(* The same for the whole resolution: the levels, and what the scanner sends and the parser does not receive. *)
Theorem C63_resolve_partial : forall n md props upper f input,
  delimiters_known props upper -> documented f -> f 0 <= 0 ->
  Forall (fun x => 0 < snd x) input -> total (para md props input) < 2 ^ 32 ->
  ResolveParagraph n md props upper (Some f) input = ResolveParagraph n md props upper None (woven f 0 input).
Proof. intros n md props upper f input K D Z0 L T. rewrite (resolve_markup md props upper f K D input L T). unfold g. now rewrite woven_start. Qed.
Print Assumptions C63_resolve_partial.
Definition answer2 (p : Z) : Z := if p =? 1 then MarkupRLI else if p =? 3 then MarkupPDI else 0.
Example C63_resolve_ex :
  match ResolveParagraph 300 plain tab4 noupper (Some answer2) (bytes [97; 65; 97; 97; 65; 97]) with
  | Ok (lv, []) => spans (Ok (lv, [])) = Some [(cLRI, 0, 0); (cL, 0, 4); (cR, 4, 5); (cL, 5, 6); (cPDI, 6, 6)] /\ marks (lv_scraps lv) = [(cLRI, 0, 0); (cRLI, 1, 1); (cPDI, 3, 3); (cPDI, 6, 6)]
  | _ => False
  end.
Proof. vm_compute. auto. Qed.

(* So what is known about texts with isolates (C30) holds for texts with markup: resolution ends, the scraps tile the
   text given, the isolates of the markup are children of their scraps, and occur in their places. *)
Theorem C63_isolates_partial : forall md props upper rtl f input r len rest n,
  delimiters_known props upper -> documented f -> f 0 <= 0 -> Forall (fun x => 0 < snd x) input ->
  props_ok props -> total (para md props input) < 2 ^ 32 ->
  let text := para md props (woven f 0 input) in
  text = (r, len) :: rest -> eff md props upper r <> cNSM -> (rtl = false -> m_r2l md = false) ->
  quiet rtl cL cNULL (classes_of md props upper text) = true ->
  closed 0 (map fst (runs_of solo_class (chars2 md props upper cNULL text))) = true ->
  roomy 0 (map fst (runs_of solo_class (chars2 md props upper cNULL text))) = true ->
  (rounds (S (length (woven f 0 input))) <= n)%nat ->
  exists lv body, ResolveParagraph n md props upper (Some f) input = Ok (lv, []) /\
    tiles 0 (lv_scraps lv) (total (para md props input)) /\
    lv_scraps lv = initial md :: body ++ [mks cPDI (total (para md props input)) (total (para md props input)) dc0 []] /\
    Forall sane body /\ Forall (fun s => forest (sl s) (kids s) (sr s)) body /\
    marks body = spots 0 (chars2 md props upper cNULL text).
Proof.
  intros md props upper rtl f input r len rest n K D Z0 L PO T text E N RT Q C RO F.
  rewrite (C63_resolve_partial n md props upper f input K D Z0 L T).
  pose proof (woven_total md props upper f K input 0) as TE. rewrite <- TE.
  apply (C30_nested_partial md props upper rtl (woven f 0 input) r len rest n); auto; [|now rewrite TE].
  apply woven_lens. exact L.
Qed.
Print Assumptions C63_isolates_partial.
Example C63_isolates_ex :
  let text := para plain tab4 (woven answer2 0 (bytes [97; 65; 97; 97; 65; 97])) in
  let cs := map fst (runs_of solo_class (chars2 plain tab4 noupper cNULL text)) in
  quiet true cL cNULL (classes_of plain tab4 noupper text) = true /\ closed 0 cs = true /\ roomy 0 cs = true /\
  spots 0 (chars2 plain tab4 noupper cNULL text) = [(cRLI, 1, 1); (cPDI, 3, 3)].
Proof. vm_compute. auto. Qed.

(* Delimiters for the start of the text are never inserted: the markup function is not asked for position 0. *)
Theorem C63_start : forall n md props upper f input,
  delimiters_known props upper -> documented f -> Forall (fun x => 0 < snd x) input -> total (para md props input) < 2 ^ 32 ->
  ResolveParagraph n md props upper (Some f) input = ResolveParagraph n md props upper None (woven (not_at_start f) 0 input).
Proof. intros n md props upper f input K D L T. exact (resolve_markup md props upper f K D input L T n). Qed.
Print Assumptions C63_start.
(* An isolate of the markup around the first character: its PDI remains without initiator, the character is outside. *)
Definition answer0 (p : Z) : Z := if p =? 0 then MarkupRLI else if p =? 1 then MarkupPDI else 0.
Theorem C63_start_refuted :
  exists md props upper f input, delimiters_known props upper /\ documented f /\ Forall (fun x => 0 < snd x) input /\
    match Scan md props upper (Some f) input, Scan md props upper None (woven f 0 input) with
    | Ok ss, Ok ss' => map clz ss = [cR; cPDI; cL; cNULL] /\ map clz ss' = [cRLI; cR; cPDI; cL; cNULL]
    | _, _ => False
    end.
Proof.
  exists plain, tab4, noupper, answer0, (bytes [65; 97]). split; [repeat split|]. split; [|split; [|vm_compute; auto]].
  - intros p. unfold answer0. destruct (p =? 0); [right; cbn; auto|]. destruct (p =? 1); [right; cbn; auto|]. left. lia.
  - repeat (apply Forall_cons || apply Forall_nil); cbn; lia.
Qed.
Print Assumptions C63_start_refuted.
Example C63_start_ex : woven (not_at_start answer0) 0 (bytes [65; 97]) = [(65, 1); invisible_PDI; (97, 1)] /\ woven answer0 0 (bytes [65; 97]) = [invisible_RLI; (65, 1); invisible_PDI; (97, 1)].
Proof. split; reflexivity. Qed.
