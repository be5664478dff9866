(* PropertiesStrings.v -- C21-C23, C27: grapheme strings and display widths. *)
From Coq Require Import List ZArith Lia Bool.
From Verif Require Import Base RuneWrite Segmenter Utf8 Utf8Proofs Grapheme GraphemeSpec BreakSpec BreakSpecProofs GraphemeProofs GraphemeCor GString GStringProofs LongCluster Width WidthSpec WidthProofs.
Import ListNotations.
Open Scope Z_scope.

(* ---- C21 ---- *)
(* Valid text without U+FFFD, no cluster longer than 4096 runes.  Clusters are those of the GB rules
   except GB9b (see C18, C19). *)
Theorem C21_lossless_partial :
  forall table pict rs n, let s := encode rs in let clusters := segmentation (gb_break false (CodePointClassFor table pict)) rs in
    rs <> [] -> Forall proper rs -> zlen s < 65535 -> Forall (fun g => zlen g <= 4096) clusters -> (length rs + 1 < n)%nat ->
    exists g, StringFromString table pict n s = Ok g /\ String g = s /\ Len g = zlen clusters /\
      (forall i, (i < length clusters)%nat -> Nth g (Z.of_nat i) = Ok (encode (nth i clusters []))) /\
      concat (map encode clusters) = s /\
      (forall i, ~ 0 <= i < zlen clusters -> Nth g i = Panic).
Proof.
  intros table pict rs n s clusters Hr P L C Hn. exists (built table pict s rs).
  assert (E : s = encode rs ++ []) by (unfold s; now rewrite app_nil_r).
  split; [rewrite E; apply build; auto; rewrite <- E; exact L|]. split; [reflexivity|]. split; [apply built_len; exact Hr|].
  split; [intros i Hi; rewrite E; apply built_cluster; auto; rewrite <- E; exact L|].
  split; [rewrite <- encode_concat; unfold clusters; now rewrite segmentation_concat|].
  intros i Hi. apply nth_out; assumption.
Qed.
Print Assumptions C21_lossless_partial.
(* Without Prepend characters: all rules. *)
Theorem C21_lossless_all_rules_partial :
  forall table pict rs n, let s := encode rs in let clusters := segmentation (gb_break true (CodePointClassFor table pict)) rs in
    rs <> [] -> Forall proper rs -> Forall (fun r => CodePointClassFor table pict r <> Prepend) rs ->
    zlen s < 65535 -> Forall (fun g => zlen g <= 4096) clusters -> (length rs + 1 < n)%nat ->
    exists g, StringFromString table pict n s = Ok g /\ String g = s /\ Len g = zlen clusters /\
      (forall i, (i < length clusters)%nat -> Nth g (Z.of_nat i) = Ok (encode (nth i clusters []))) /\
      concat (map encode clusters) = s /\
      (forall i, ~ 0 <= i < zlen clusters -> Nth g i = Panic).
Proof.
  intros table pict rs n s clusters Hr P Np. unfold clusters. rewrite <- (no_prepend _ rs Np). intros L C Hn.
  exact (C21_lossless_partial table pict rs n Hr P L C Hn).
Qed.
Print Assumptions C21_lossless_all_rules_partial.
Example C21_ex : let rs := [97; 769; 8364; 128104] in
  Forall (fun g => zlen g <= 4096) (segmentation (gb_break true (CodePointClassFor tab pic)) rs) /\ Forall proper rs /\
  encode rs = [97; 204; 129; 226; 130; 172; 240; 159; 145; 168] /\
  (let* g := StringFromString tab pic 9 (encode rs) in Ok (breaks g)) = Ok [0; 3; 6; 10].
Proof.
  split; [vm_compute; repeat constructor; discriminate|]. split; [repeat constructor; discriminate|]. split; vm_compute; reflexivity.
Qed.
(* A valid text with U+FFFD is not indexed behind it: "a U+FFFD b" has three clusters. *)
Theorem C21_replacement_character_refuted :
  exists table pict rs g, let clusters := segmentation (gb_break true (CodePointClassFor table pict)) rs in
    Forall (fun r => scalar r = true) rs /\ zlen (encode rs) <= 32766 /\
    StringFromString table pict 9 (encode rs) = Ok g /\ zlen clusters = 3 /\ Len g = 1.
Proof.
  exists tab, pic, [97; 65533; 98]. eexists. split; [repeat constructor|]. split; [vm_compute; discriminate|].
  split; [vm_compute; reflexivity|]. split; vm_compute; reflexivity.
Qed.
Print Assumptions C21_replacement_character_refuted.
(* A cluster of more than 4096 runes shifts everything behind it: "a", 4100 times U+0301, "b". *)
Theorem C21_long_cluster_refuted :
  exists table pict rs g, let clusters := segmentation (gb_break true (CodePointClassFor table pict)) rs in
    Forall proper rs /\ zlen (encode rs) <= 32766 /\ (forall n, (length rs + 1 < n)%nat -> StringFromString table pict n (encode rs) = Ok g) /\
    nth 1 clusters [] = [98] /\ Nth g 1 = Ok [204].
Proof.
  assert (P : Forall proper long).
  { constructor; [split; [reflexivity|discriminate]|]. apply Forall_app. split; [|constructor; [split; [reflexivity|discriminate]|constructor]].
    apply Forall_forall. intros x Hx. apply repeat_spec in Hx. subst x. split; [reflexivity|discriminate]. }
  exists tab, pic, long, (built tab pic (encode long) long). split; [exact P|]. split; [vm_compute; discriminate|].
  split. { intros n Hn. rewrite <- (app_nil_r (encode long)). apply build; auto; [discriminate|vm_compute; reflexivity]. }
  split; [rewrite (long_clusters true); reflexivity|exact long_nth].
Qed.
Print Assumptions C21_long_cluster_refuted.

(* ---- C22 ---- *)
(* What happens for every byte sequence: an error-free result iff the first bytes are a legal rune
   other than U+FFFD; the string is then that of the longest such prefix. *)
Theorem C22_legal_start_partial :
  forall table pict s n, Forall byte s -> zlen s < 65535 -> fst (DecodeRune s) <> RuneError -> (length s + 1 < n)%nat ->
    exists rs rest g, s = encode rs ++ rest /\ Forall proper rs /\ fst (DecodeRune rest) = RuneError /\
      StringFromString table pict n s = Ok g /\ String g = s /\
      Len g = zlen (segmentation (gb_break false (CodePointClassFor table pict)) rs).
Proof.
  intros table pict s n B L D Hn. destruct (rr_any (length s) s (le_n _) B) as (rs & rest & E & P & R). exists rs, rest.
  assert (Hr : rs <> []) by (intros ->; cbn in E; subst; contradiction).
  exists (built table pict s rs). split; [exact E|]. split; [exact P|]. split; [exact R|].
  split; [|split; [reflexivity|apply built_len; exact Hr]].
  clear D. subst s. apply build; auto. rewrite app_length in Hn. pose proof (encode_ge rs). lia.
Qed.
Print Assumptions C22_legal_start_partial.
Example C22_ex : let s := [97; 204; 129; 255; 98] in Forall byte s /\ fst (DecodeRune s) <> RuneError /\
  (let* g := StringFromString tab pic 9 s in Ok (Len g)) = Ok 1.
Proof. split; [repeat constructor; unfold byte; lia|]. split; [discriminate|vm_compute; reflexivity]. Qed.
(* All other inputs: panic, or no termination if the first byte is a continuation byte. *)
Theorem C22_panics_refuted :
  forall table pict s n, fst (DecodeRune s) = RuneError -> (forall b, hd_error s = Some b -> RuneStart b = true) ->
    StringFromString table pict (S n) s = Panic.
Proof.
  intros table pict s n D H.
  assert (X : forall bits, makeString table pict bits (S n) s = Panic).
  { intros bits. unfold makeString, prepareBreaking. rewrite position_cases. destruct s as [|b t]; [reflexivity|].
    rewrite (H b eq_refl), D. reflexivity. }
  unfold StringFromString. destruct (_ <? 255); [apply X|]. destruct (_ <? 65535); [apply X|reflexivity].
Qed.
Print Assumptions C22_panics_refuted.
Theorem C22_diverges_refuted :
  forall table pict b t, RuneStart b = false -> zlen (b :: t) < 65535 -> forall n, StringFromString table pict n (b :: t) = NoFuel.
Proof.
  intros table pict b t R L n.
  assert (X : forall bits, makeString table pict bits n (b :: t) = NoFuel).
  { intros bits. unfold makeString, prepareBreaking. rewrite position_diverges by exact R. reflexivity. }
  unfold StringFromString. destruct (_ <? 255); [apply X|]. rewrite (proj2 (Z.ltb_lt _ _)) by exact L. apply X.
Qed.
Print Assumptions C22_diverges_refuted.
(* the empty string; an invalid byte before "a"; a continuation byte before "a" *)
Example C22_refuted_ex : fst (DecodeRune []) = RuneError /\ fst (DecodeRune [255; 97]) = RuneError /\ RuneStart 255 = true /\ RuneStart 128 = false /\
  StringFromString tab pic 9 [] = Panic /\ StringFromString tab pic 9 [255; 97] = Panic /\ StringFromString tab pic 9 [128; 97] = NoFuel.
Proof. repeat split. Qed.

(* The three outcomes for every byte sequence short enough, with fuel enough. *)
Theorem C22_outcome :
  forall table pict s n, Forall byte s -> zlen s < 65535 -> (length s + 1 < n)%nat ->
    match StringFromString table pict n s with
    | Ok g => fst (DecodeRune s) <> RuneError /\ String g = s
    | Panic => fst (DecodeRune s) = RuneError /\ forall b, hd_error s = Some b -> RuneStart b = true
    | NoFuel => exists b t, s = b :: t /\ RuneStart b = false
    end.
Proof.
  intros table pict s n B L Hn. destruct (Z.eq_dec (fst (DecodeRune s)) RuneError) as [D|D].
  - destruct s as [|b t].
    + destruct n as [|n]; [cbn in Hn; lia|]. rewrite C22_panics_refuted; [|reflexivity|discriminate]. split; [reflexivity|discriminate].
    + destruct (RuneStart b) eqn:R.
      * assert (Q : forall c, hd_error (b :: t) = Some c -> RuneStart c = true) by (intros c [= <-]; exact R).
        destruct n as [|n]; [cbn in Hn; lia|]. rewrite C22_panics_refuted by assumption. auto.
      * rewrite C22_diverges_refuted by assumption. eauto.
  - destruct (C22_legal_start_partial table pict s n B L D Hn) as (rs & rest & g & _ & _ & _ & E & G & _). rewrite E. auto.
Qed.
Print Assumptions C22_outcome.
Example C22_outcome_ex : (let* g := StringFromString tab pic 9 [97; 98] in Ok (String g)) = Ok [97; 98] /\ StringFromString tab pic 9 [255] = Panic /\
  StringFromString tab pic 9 [128] = NoFuel.
Proof. repeat split. Qed.

(* ---- C23 ---- *)
Theorem C23_first_rune_legal_partial :
  forall n s r t, scalar r = true -> r <> RuneError -> s = EncodeRune r ++ t ->
    exists a, PositionOfFirstLegalRune (S n) s = Ok a /\ first_legal s a.
Proof. exact position_right. Qed.
Print Assumptions C23_first_rune_legal_partial.
Example C23_ex : scalar 8364 = true /\ 8364 <> RuneError /\ PositionOfFirstLegalRune 1 [226; 130; 172; 97] = Ok (0, []).
Proof. split; [reflexivity|split; [discriminate|reflexivity]]. Qed.
Theorem C23_nothing_legal_partial :
  forall n s a, Forall byte s -> (forall k, ~ legal_here (skipn k s)) -> PositionOfFirstLegalRune n s = Ok a -> first_legal s a.
Proof. exact position_none. Qed.
Print Assumptions C23_nothing_legal_partial.
Example C23_nothing_ex : (forall k, ~ legal_here (skipn k [255; 255])) /\ PositionOfFirstLegalRune 1 [255; 255] = Ok (-1, []).
Proof.
  split; [|reflexivity]. intros k H.
  assert (K : skipn k [255; 255] = [255; 255] \/ skipn k [255; 255] = [255] \/ skipn k [255; 255] = []).
  { destruct k as [|[|k]]; auto. right. right. cbn [skipn]. apply skipn_nil. }
  destruct K as [K | [K | K]]; rewrite K in H; (apply legal_iff in H; [apply H; vm_compute; split; [reflexivity|discriminate]|repeat constructor; unfold byte; lia]).
Qed.
(* Exactly when the result is the one documented: the first bytes are a legal rune other than U+FFFD, or
   there is nothing legal and the first byte, if any, is not a continuation byte. *)
Theorem C23_right_iff :
  forall n s, Forall byte s ->
    (exists a, PositionOfFirstLegalRune (S n) s = Ok a /\ first_legal s a) <->
    (fst (DecodeRune s) <> RuneError \/ ((forall k, ~ legal_here (skipn k s)) /\ forall b, hd_error s = Some b -> RuneStart b = true)).
Proof.
  intros n s B. split.
  - intros (a & H & F). destruct (Z.eq_dec (fst (DecodeRune s)) RuneError) as [D|D]; [right|left; exact D].
    assert (R : forall b, hd_error s = Some b -> RuneStart b = true).
    { intros b E. destruct s as [|c t]; [discriminate E|]. injection E as ->. destruct (RuneStart b) eqn:R; [reflexivity|]. rewrite position_diverges in H by exact R. discriminate H. }
    split; [|exact R]. assert (E : a = (-1, [])).
    { rewrite position_cases in H. destruct s as [|b t]; [injection H as <-; reflexivity|]. rewrite (R b eq_refl), D, Z.eqb_refl in H. injection H as <-. reflexivity. }
    destruct F as [[_ N]|(k & _ & E2 & _)]; [exact N|]. rewrite E in E2. injection E2 as E2 _. lia.
  - intros [D|[N R]].
    + exists (0, []). split; [apply position_good, D|]. right. exists 0%nat. split; [destruct s; [contradiction D; reflexivity|cbn; lia]|].
      split; [reflexivity|]. split; [|intros j J; lia]. cbn [skipn]. apply legal_iff; [exact B|]. intros [F _]. contradiction.
    + assert (X : exists a, PositionOfFirstLegalRune (S n) s = Ok a).
      { rewrite position_cases. destruct s as [|b t]; [eauto|]. rewrite (R b eq_refl). eauto. }
      destruct X as [a X]. exists a. split; [exact X|]. exact (position_none (S n) s a B N X).
Qed.
Print Assumptions C23_right_iff.
Example C23_right_iff_ex : fst (DecodeRune [226; 130; 172]) <> RuneError /\ fst (DecodeRune [239; 191; 189]) = RuneError /\ legal_here [239; 191; 189].
Proof. split; [discriminate|]. split; [reflexivity|]. exists 65533, []. split; reflexivity. Qed.
(* It never looks beyond the first byte: "a" behind an invalid byte is not found ... *)
Theorem C23_skipped_prefix_refuted :
  forall n b t r, RuneStart b = true -> fst (DecodeRune (b :: EncodeRune r ++ t)) = RuneError -> scalar r = true ->
    exists a, PositionOfFirstLegalRune (S n) (b :: EncodeRune r ++ t) = Ok a /\ ~ first_legal (b :: EncodeRune r ++ t) a.
Proof.
  intros n b t r R D Sc. exists (-1, []). split; [rewrite position_cases, R, D; reflexivity|].
  intros [[_ H]|(k & _ & E & _)]; [apply (H 1%nat); exists r, t; auto|]. injection E as E _. lia.
Qed.
Print Assumptions C23_skipped_prefix_refuted.
(* ... and it does not terminate if the first byte is a continuation byte. *)
Theorem C23_diverges_refuted :
  forall b t, RuneStart b = false -> forall n, PositionOfFirstLegalRune n (b :: t) = NoFuel.
Proof. exact position_diverges. Qed.
Print Assumptions C23_diverges_refuted.
Example C23_refuted_ex : RuneStart 255 = true /\ fst (DecodeRune (255 :: EncodeRune 97 ++ [])) = RuneError /\ RuneStart 128 = false.
Proof. repeat split. Qed.

(* ---- C27 ---- *)
Section Oracles.
Context (Zzzz : Z) (script_of : Z -> Z) (asian_script : Z -> bool) (matches : Z -> bool).
Context (emoji : Z -> bool) (kind_of : Z -> kind) (Latn en_US : Z).
Notation W := (Width Zzzz script_of asian_script matches emoji kind_of Latn en_US).
Notation SW := (StringWidth Zzzz script_of asian_script matches emoji kind_of Latn en_US).

Theorem C27_width_range : forall n g c w c', W n g c = Ok (w, c') -> w = 0 \/ w = 1 \/ w = 2.
Proof. exact (width_range Zzzz script_of asian_script matches emoji kind_of Latn en_US). Qed.
(* A result is delivered for every byte sequence that does not start with a continuation byte, and a
   second call with the context left by the first delivers the same. *)
Theorem C27_width_stable : forall n g c, (forall b, hd_error g = Some b -> RuneStart b = true) ->
  exists w c', W (S n) g c = Ok (w, c') /\ W (S n) g c' = Ok (w, c').
Proof.
  intros n g c H. rewrite width_value. destruct g as [|b t]; [exists 0, c; auto|]. rewrite (H b eq_refl).
  destruct (fst (DecodeRune (b :: t)) =? RuneError) eqn:D.
  - exists 0, c. split; [reflexivity|]. rewrite width_value, (H b eq_refl), D. reflexivity.
  - eexists _, _. split; [reflexivity|]. rewrite width_value, (H b eq_refl), D.
    destruct (prepare_again Zzzz script_of asian_script matches Latn en_US c) as [-> ->]. reflexivity.
Qed.
(* StringWidth is the sum of the widths of the clusters. *)
Theorem C27_string_width_is_sum :
  forall table pict rs n c, let s := encode rs in let clusters := segmentation (gb_break false (CodePointClassFor table pict)) rs in
    rs <> [] -> Forall proper rs -> zlen s < 65535 -> Forall (fun g => zlen g <= 4096) clusters -> (length rs + 1 < n)%nat ->
    exists g ws c', StringFromString table pict n s = Ok g /\ SW g c = Ok (fold_right Z.add 0 ws, c') /\
      Forall2 (fun cl w => W n (encode cl) c = Ok (w, c') /\ (w = 1 \/ w = 2)) clusters ws.
Proof.
  intros table pict rs n c s clusters Hr P L C Hn. destruct n as [|n]; [lia|]. exists (built table pict s rs).
  assert (E : s = encode rs ++ []) by (unfold s; now rewrite app_nil_r).
  eexists _, _. split; [rewrite E; apply build; auto; rewrite <- E; exact L|]. split.
  - rewrite E. apply string_width; auto. rewrite <- E. exact L.
  - assert (H : forall l, (forall g, In g l -> In g clusters) -> let ctx := fst (prepare Zzzz script_of asian_script matches Latn en_US c) in
      Forall2 (fun cl w => W (S n) (encode cl) c = Ok (w, snd (prepare Zzzz script_of asian_script matches Latn en_US c)) /\ (w = 1 \/ w = 2))
        l (map (fun g => gw emoji kind_of ctx (encode g)) l)).
    { induction l as [|g t IH]; intros H ctx; [constructor|]. cbn [map]. constructor; [|apply IH; intros x Hx; apply H; right; exact Hx].
      split; [apply (cluster_width _ _ _ _ _ _ _ _ table pict n rs c g P), H; left; reflexivity|]. apply gw_ok, prepared. }
    apply H. auto.
Qed.
(* Additivity: if there is a boundary between the two texts. *)
Theorem C27_additive :
  forall table pict r1 r2 n c, let cl := segmentation (gb_break false (CodePointClassFor table pict)) in
    r1 <> [] -> r2 <> [] -> Forall proper (r1 ++ r2) -> zlen (encode (r1 ++ r2)) < 65535 ->
    Forall (fun g => zlen g <= 4096) (cl (r1 ++ r2)) -> cl (r1 ++ r2) = cl r1 ++ cl r2 -> (length (r1 ++ r2) + 1 < n)%nat ->
    exists g g1 g2 w1 w2 c', StringFromString table pict n (encode (r1 ++ r2)) = Ok g /\
      StringFromString table pict n (encode r1) = Ok g1 /\ StringFromString table pict n (encode r2) = Ok g2 /\
      SW g1 c = Ok (w1, c') /\ SW g2 c = Ok (w2, c') /\ SW g c = Ok (w1 + w2, c').
Proof.
  intros table pict r1 r2 n c cl N1 N2 P L C J Hn.
  pose proof (zlen_nonneg (encode r1)). pose proof (zlen_nonneg (encode r2)).
  assert (L12 : zlen (encode (r1 ++ r2)) = zlen (encode r1) + zlen (encode r2)) by (rewrite encode_app, zlen_app; reflexivity).
  apply Forall_app in P. destruct P as [P1 P2]. rewrite app_length in Hn.
  assert (N : r1 ++ r2 <> []) by (destruct r1; [contradiction|discriminate]).
  rewrite J in C. pose proof C as C'. apply Forall_app in C'. destruct C' as [C1 C2].
  exists (built table pict (encode (r1 ++ r2)) (r1 ++ r2)), (built table pict (encode r1) r1), (built table pict (encode r2) r2).
  eexists _, _, _.
  pose proof (app_nil_r (encode (r1 ++ r2))) as E. pose proof (app_nil_r (encode r1)) as E1. pose proof (app_nil_r (encode r2)) as E2.
  split; [rewrite <- E at 1 2; apply build; auto; [apply Forall_app; auto|rewrite E; lia|rewrite app_length; lia]|].
  split; [rewrite <- E1 at 1 2; apply build; auto; [rewrite E1; lia|lia]|].
  split; [rewrite <- E2 at 1 2; apply build; auto; [rewrite E2; lia|lia]|].
  split; [rewrite <- E1 at 1; apply string_width; auto; rewrite E1; lia|].
  split; [rewrite <- E2 at 1; apply string_width; auto; rewrite E2; lia|].
  rewrite <- E at 1. rewrite string_width; auto; [|rewrite E; lia|fold cl; rewrite J; exact C].
  fold cl. rewrite J, map_app, zsum_app. reflexivity.
Qed.
(* Width does not return for a grapheme that starts with a continuation byte (documented: 0). *)
Theorem C27_invalid_diverges_refuted : forall b t c, RuneStart b = false -> forall n, W (S n) (b :: t) c = NoFuel.
Proof. intros b t c R n. rewrite width_value, R. reflexivity. Qed.
(* No legal rune has width 0, not even zero-width ones (documented: 0). *)
Theorem C27_zero_width_refuted : forall n r c, scalar r = true -> r <> RuneError -> exists w c', W (S n) (EncodeRune r) c = Ok (w, c') /\ w <> 0.
Proof.
  intros n r c Sc N. rewrite width_value. pose proof (decode_encode r [] Sc) as D. rewrite app_nil_r in D.
  destruct (EncodeRune r) as [|b u] eqn:E; [cbn in D; congruence|].
  rewrite (decode_start b u) by (rewrite D; exact N). rewrite D. cbn [fst]. destruct (Z.eqb_spec r RuneError); [contradiction|].
  eexists _, _. split; [reflexivity|]. destruct (gw_ok emoji kind_of _ (b :: u) (prepared Zzzz script_of asian_script matches Latn en_US c)) as [_ H]. lia.
Qed.
End Oracles.
Print Assumptions C27_width_range.
Print Assumptions C27_width_stable.
Print Assumptions C27_string_width_is_sum.
Print Assumptions C27_additive.
Print Assumptions C27_invalid_diverges_refuted.
Print Assumptions C27_zero_width_refuted.
Definition kind_ex (r : Z) : kind := if r =? 19990 then EastAsianWide else if r <? 128 then EastAsianNarrow else EastAsianAmbiguous.
(* "A" U+0301 U+4E16: widths 1 and 2 *)
Example C27_ex : let cl := segmentation (gb_break false (CodePointClassFor tab pic)) in
  cl ([65; 769] ++ [19990]) = cl [65; 769] ++ cl [19990] /\
  (let* g := StringFromString tab pic 9 (encode [65; 769; 19990]) in
   StringWidth 0 (fun x => x) (fun _ => false) (fun _ => false) (fun _ => false) kind_ex 1 2 g None) = Ok (3, None).
Proof. split; vm_compute; reflexivity. Qed.

(* ---- C46 ---- *)
Section Values.
Context (Zzzz : Z) (script_of : Z -> Z) (asian_script : Z -> bool) (matches : Z -> bool).
Context (emoji : Z -> bool) (kind_of : Z -> kind) (Latn en_US : Z).
Notation W := (Width Zzzz script_of asian_script matches emoji kind_of Latn en_US).
Notation asian := (east_asian Zzzz script_of asian_script matches).

Lemma resolver_asian c : resolve (fst (prepare Zzzz script_of asian_script matches Latn en_US c)) = Some (if asian c then ToWide else ToNarrow).
Proof.
  destruct c as [ctx|]; [|reflexivity]. unfold prepare, east_asian. destruct (resolve ctx) as [[]|] eqn:R; cbn [fst]; auto.
  unfold evaluateContext. destruct (ForceEastAsian ctx); [reflexivity|]. unfold findResolver. cbn [resolve orb].
  destruct (asian_script _); [reflexivity|]. cbn [orb]. destruct (matches _); reflexivity.
Qed.

(* The width of a grapheme is that of its first rune, if it is a legal one: 2 for an emoji of any class,
   otherwise as UAX#11 says, but neutral characters are wide in an East Asian context. *)
Theorem C46_width_value :
  forall n r t c, scalar r = true -> r <> RuneError ->
    exists c', W (S n) (EncodeRune r ++ t) c =
      Ok (if emoji r || uax11_wide (asian c) (kind_of r)
             || (asian c && match kind_of r with Neutral => true | _ => false end) then 2 else 1, c').
Proof.
  intros n r t c Sc N. rewrite width_value. pose proof (decode_encode r t Sc) as D.
  destruct (EncodeRune r ++ t) as [|b u] eqn:E; [cbn in D; congruence|].
  rewrite (decode_start b u) by (rewrite D; exact N). rewrite D. cbn [fst]. destruct (Z.eqb_spec r RuneError); [contradiction|].
  eexists. f_equal. f_equal. unfold gw, graphemeWidth. rewrite D. destruct (emoji r); [reflexivity|].
  rewrite resolver_asian. cbn [lift rbind orb]. destruct (asian c), (kind_of r); reflexivity.
Qed.
(* For characters that are neither emoji nor neutral this is the recommendation of UAX#11. *)
Theorem C46_uax11_partial :
  forall n r t c, scalar r = true -> r <> RuneError -> emoji r = false -> kind_of r <> Neutral ->
    exists c', W (S n) (EncodeRune r ++ t) c = Ok (if uax11_wide (asian c) (kind_of r) then 2 else 1, c').
Proof.
  intros n r t c Sc N E K. destruct (C46_width_value n r t c Sc N) as [c' H]. exists c'. rewrite H, E. cbn [orb].
  destruct (kind_of r); try contradiction; rewrite andb_false_r, orb_false_r; reflexivity.
Qed.
(* Neutral characters are not treated as narrow ones in an East Asian context. *)
Theorem C46_neutral_wide_refuted :
  forall n r t c, scalar r = true -> r <> RuneError -> kind_of r = Neutral -> asian c = true ->
    exists c', W (S n) (EncodeRune r ++ t) c = Ok (2, c') /\ uax11_wide (asian c) (kind_of r) = false.
Proof.
  intros n r t c Sc N K A. destruct (C46_width_value n r t c Sc N) as [c' H]. exists c'. rewrite H, K, A. cbn [uax11_wide].
  rewrite !orb_true_r. auto.
Qed.
End Values.
(* Whatever has an emoji class is wide in every context.  The table of class Emoji contains the digits
   and the characters # and * (emojiclasses.go:53-54). *)
Theorem C46_digit_wide_refuted :
  forall Zzzz script_of asian_script matches table kind_of Latn en_US n r c,
    48 <= r <= 57 -> table 0 r = true -> kind_of r = EastAsianNarrow ->
    exists c', Width Zzzz script_of asian_script matches (fun r => 0 <=? EmojisClassForRune table r) kind_of Latn en_US (S n) (EncodeRune r) c
      = Ok (2, c') /\ uax11_wide (east_asian Zzzz script_of asian_script matches c) (kind_of r) = false.
Proof.
  intros Zzzz script_of asian_script matches table kind_of Latn en_US n r c R T K.
  destruct (C46_width_value Zzzz script_of asian_script matches (fun r => 0 <=? EmojisClassForRune table r) kind_of Latn en_US n r [] c) as [c' H].
  - unfold scalar, between. destruct (Z.leb_spec 0 r); [|lia]. destruct (Z.leb_spec r 55295); [reflexivity|lia].
  - unfold RuneError. lia.
  - exists c'. rewrite app_nil_r in H. rewrite H, K. unfold EmojisClassForRune. cbn [find]. rewrite T. auto.
Qed.
Print Assumptions C46_width_value.
Print Assumptions C46_uax11_partial.
Print Assumptions C46_neutral_wide_refuted.
Print Assumptions C46_digit_wide_refuted.
(* an ambiguous letter is narrow without a context, wide in the East Asian one; a digit is an emoji *)
Example C46_ex :
  let w := Width 0 (fun x => x) (fun _ => false) (fun _ => false) (fun _ => false) kind_ex 1 2 9 (EncodeRune 945) in
  w None = Ok (1, None) /\ w (Some (mkctx true 5 6 None)) = Ok (2, Some (mkctx true 5 6 (Some ToWide))) /\
  Width 0 (fun x => x) (fun _ => false) (fun _ => false) (fun r => 0 <=? EmojisClassForRune (fun c r => (c =? 0) && (r =? 50)) r)
    kind_ex 1 2 9 [50] None = Ok (2, None).
Proof. vm_compute. auto. Qed.
(* a neutral letter in the East Asian context *)
Example C46_neutral_ex :
  Width 0 (fun x => x) (fun _ => false) (fun _ => false) (fun _ => false) (fun _ => Neutral) 1 2 9 (EncodeRune 1488) (Some (mkctx true 5 6 None))
  = Ok (2, Some (mkctx true 5 6 (Some ToWide))).
Proof. reflexivity. Qed.
