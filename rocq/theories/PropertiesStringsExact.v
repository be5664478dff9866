(* PropertiesStringsExact.v -- C21 and C27 for every byte sequence: the graphemes, exactly when they make up the text, and
   the width. *)
From Coq Require Import List ZArith Lia Bool.
From Verif Require Import Base RuneWrite Segmenter Utf8 Utf8Proofs Grapheme GraphemeSpec BreakSpec BreakSpecProofs GraphemeProofs GraphemeCor GString GStringProofs LongCluster Width WidthSpec WidthProofs GStringExact PropertiesStrings.
Import ListNotations.
Open Scope Z_scope.

(* Every byte sequence that begins with a legal rune.  rs are the runes before the first illegal byte or
   U+FFFD.  Grapheme i has as many bytes as the first 4096 runes of cluster i, and begins where grapheme
   i - 1 ends.  Nothing else is in the string. *)
Theorem C21_every_string :
  forall table pict s n, Forall byte s -> zlen s < 65535 -> fst (DecodeRune s) <> RuneError -> (length s + 1 < n)%nat ->
    exists rs rest g, s = encode rs ++ rest /\ Forall proper rs /\ fst (DecodeRune rest) = RuneError /\
      StringFromString table pict n s = Ok g /\ String g = s /\
      let clusters := segmentation (gb_break false (CodePointClassFor table pict)) rs in
      Len g = zlen clusters /\
      (forall i, (i < length clusters)%nat -> Nth g (Z.of_nat i) = Ok (piece s (map shown clusters) i)) /\
      (forall i, ~ 0 <= i < zlen clusters -> Nth g i = Panic).
Proof.
  intros table pict s n B L D Hn. destruct (rr_any (length s) s (le_n _) B) as (rs & rest & E & P & R). exists rs, rest.
  assert (Hr : rs <> []) by (intros ->; cbn in E; subst; contradiction).
  exists (built table pict s rs). split; [exact E|]. split; [exact P|]. split; [exact R|].
  split; [clear D; subst s; apply build; auto; rewrite app_length in Hn; pose proof (encode_ge rs); lia|]. split; [reflexivity|]. cbv zeta.
  split; [apply built_len; exact Hr|]. split; [|intros i; apply nth_out; exact Hr]. clear D. subst s. intros i Hi. apply nth_piece; assumption.
Qed.
Print Assumptions C21_every_string.
(* "a", 4100 times U+0301, "b": the second grapheme is the first byte of the accent that no longer fits.
   "a", U+0301, an illegal byte, "b": one grapheme. *)
Example C21_every_string_ex : map shown (segmentation (gb_break false (CodePointClassFor tab pic)) long) = [8191; 1] /\ piece (encode long) [8191; 1] 1 = [204] /\
  (let* g := StringFromString tab pic 9 [97; 204; 129; 255; 98] in let* p := Nth g 0 in Ok (Len g, p)) = Ok (1, [97; 204; 129]).
Proof. split; [rewrite long_clusters; vm_compute; reflexivity|]. split; vm_compute; reflexivity. Qed.

(* The graphemes make up the text exactly if all of it is legal runes other than U+FFFD, and no cluster
   has more than 4096 runes. *)
Theorem C21_lossless_iff :
  forall table pict s n, Forall byte s -> zlen s < 65535 -> fst (DecodeRune s) <> RuneError -> (length s + 1 < n)%nat ->
    exists rs rest g, s = encode rs ++ rest /\ Forall proper rs /\ fst (DecodeRune rest) = RuneError /\
      StringFromString table pict n s = Ok g /\
      let clusters := segmentation (gb_break false (CodePointClassFor table pict)) rs in
      exists ps, Forall2 (fun i p => Nth g (Z.of_nat i) = Ok p) (seq 0 (Z.to_nat (Len g))) ps /\
        (concat ps = s <-> rest = [] /\ Forall (fun c => zlen c <= 4096) clusters).
Proof.
  intros table pict s n B L D Hn. destruct (C21_every_string table pict s n B L D Hn) as (rs & rest & g & E & P & R & G & _ & N). exists rs, rest, g. repeat split; auto.
  cbv zeta in N |- *. set (clusters := segmentation _ rs) in *. destruct N as (LG & N & _).
  assert (Hr : rs <> []) by (intros ->; cbn in E; subst; contradiction).
  assert (G' : StringFromString table pict n s = Ok (built table pict s rs)).
  { clear N G D. subst s. apply build; auto. rewrite app_length in Hn. pose proof (encode_ge rs). lia. }
  rewrite G in G'. injection G' as ->. exists (map (piece s (map shown clusters)) (seq 0 (length clusters))).
  assert (F : Forall2 (fun i p => Nth (built table pict s rs) (Z.of_nat i) = Ok p) (seq 0 (length clusters)) (map (piece s (map shown clusters)) (seq 0 (length clusters)))).
  { assert (X : forall l, Forall (fun i => (i < length clusters)%nat) l -> Forall2 (fun i p => Nth (built table pict s rs) (Z.of_nat i) = Ok p) l (map (piece s (map shown clusters)) l)).
    { induction l as [|i l IH]; intros F; [constructor|]. inversion F; subst. constructor; auto. }
    apply X, Forall_forall. intros i I. apply in_seq in I. lia. }
  replace (Z.to_nat (Len (built table pict s rs))) with (length clusters) by (unfold zlen in LG; lia). split; [exact F|].
  pose proof (whole_iff table pict rs rest Hr) as W. cbv beta zeta in W. fold clusters in W. rewrite <- E in W. rewrite <- (W L). split.
  - intros C ps Q. rewrite <- C. f_equal. clear C. revert ps Q F. generalize (map (piece s (map shown clusters)) (seq 0 (length clusters))). generalize (seq 0 (length clusters)).
    induction l as [|i l IH]; intros qs ps A C'; inversion A; inversion C'; subst; [reflexivity|]. f_equal; [congruence|auto].
  - intros H. apply H, F.
Qed.
Print Assumptions C21_lossless_iff.
Example C21_lossless_iff_ex : let s := [97; 204; 129; 255; 98] in Forall byte s /\ zlen s < 65535 /\ fst (DecodeRune s) <> RuneError /\
  (let* g := StringFromString tab pic 9 s in let* p := Nth g 0 in Ok (Len g, p)) = Ok (1, firstn 3 s) /\
  (let* g := StringFromString tab pic 9 [97; 204; 129; 98] in let* p := Nth g 0 in let* q := Nth g 1 in Ok (Len g, p, q)) = Ok (2, [97; 204; 129], [98]).
Proof. split; [repeat constructor; unfold byte; lia|]. split; [reflexivity|]. split; [discriminate|]. split; vm_compute; reflexivity. Qed.

(* The graphemes up to number i are clusters exactly if none of these clusters has more than 4096 runes. *)
Theorem C21_right_iff :
  forall table pict s n, Forall byte s -> zlen s < 65535 -> fst (DecodeRune s) <> RuneError -> (length s + 1 < n)%nat ->
    exists rs rest g, s = encode rs ++ rest /\ Forall proper rs /\ fst (DecodeRune rest) = RuneError /\
      StringFromString table pict n s = Ok g /\
      let clusters := segmentation (gb_break false (CodePointClassFor table pict)) rs in
      forall i, (i < length clusters)%nat ->
        (forall j, (j <= i)%nat -> Nth g (Z.of_nat j) = Ok (encode (nth j clusters []))) <-> Forall (fun c => zlen c <= 4096) (firstn (S i) clusters).
Proof.
  intros table pict s n B L D Hn. destruct (rr_any (length s) s (le_n _) B) as (rs & rest & E & P & R). exists rs, rest.
  assert (Hr : rs <> []) by (intros ->; cbn in E; subst; contradiction).
  exists (built table pict s rs). split; [exact E|]. split; [exact P|]. split; [exact R|]. clear D. subst s.
  split; [apply build; auto; rewrite app_length in Hn; pose proof (encode_ge rs); lia|]. cbv zeta. intros i Hi. apply right_upto; assumption.
Qed.
Print Assumptions C21_right_iff.
Example C21_right_iff_ex : segmentation (gb_break false (CodePointClassFor tab pic)) [97; 769; 98] = [[97; 769]; [98]] /\
  (let* g := StringFromString tab pic 9 (encode [97; 769; 98]) in Nth g 1) = Ok [98].
Proof. split; vm_compute; reflexivity. Qed.

(* ---- C27 ---- *)
Section Oracles.
Context (Zzzz : Z) (script_of : Z -> Z) (asian_script : Z -> bool) (matches : Z -> bool).
Context (emoji : Z -> bool) (kind_of : Z -> kind) (Latn en_US : Z).
Notation SW := (StringWidth Zzzz script_of asian_script matches emoji kind_of Latn en_US).
Notation asian := (east_asian Zzzz script_of asian_script matches).
(* the width of a rune *)
Definition rune_width (a : bool) (r : Z) : Z :=
  if emoji r || uax11_wide a (kind_of r) || (a && match kind_of r with Neutral => true | _ => false end) then 2 else 1.
Lemma gw_rune c g : gw emoji kind_of (fst (prepare Zzzz script_of asian_script matches Latn en_US c)) g = rune_width (asian c) (fst (DecodeRune g)).
Proof.
  unfold gw, graphemeWidth, rune_width. destruct (DecodeRune g) as [r k]. cbn [fst]. destruct (emoji r); [reflexivity|].
  rewrite (resolver_asian Zzzz script_of asian_script matches). cbn [lift rbind orb]. destruct (asian c), (kind_of r); reflexivity.
Qed.
(* The width of every byte sequence that begins with a legal rune: the sum of the widths of the first runes of its
   graphemes (of U+FFFD, where a grapheme begins within a rune).  It is at least the number of the graphemes and at
   most twice that number.  The context afterwards does not depend on the text. *)
Theorem C27_every_string :
  forall table pict s n c, Forall byte s -> zlen s < 65535 -> fst (DecodeRune s) <> RuneError -> (length s + 1 < n)%nat ->
    exists g ps, StringFromString table pict n s = Ok g /\ Forall2 (fun i p => Nth g (Z.of_nat i) = Ok p) (seq 0 (Z.to_nat (Len g))) ps /\
      SW g c = Ok (fold_right Z.add 0 (map (fun p => rune_width (asian c) (fst (DecodeRune p))) ps), snd (prepare Zzzz script_of asian_script matches Latn en_US c)) /\
      Len g <= fold_right Z.add 0 (map (fun p => rune_width (asian c) (fst (DecodeRune p))) ps) <= 2 * Len g.
Proof.
  intros table pict s n c B L D Hn. destruct (C21_every_string table pict s n B L D Hn) as (rs & rest & g & E & P & R & G & _ & N). exists g.
  cbv zeta in N. set (clusters := segmentation _ rs) in *. destruct N as (LG & N & _).
  set (ps := map (piece s (map shown clusters)) (seq 0 (length clusters))). exists ps. split; [exact G|].
  assert (F : forall l, Forall (fun i => (i < length clusters)%nat) l -> Forall2 (fun i p => Nth g (Z.of_nat i) = Ok p) l (map (piece s (map shown clusters)) l)).
  { induction l as [|i l IH]; intros F; [constructor|]. inversion F; subst. constructor; auto. }
  assert (LL : Z.to_nat (Len g) = length clusters) by (unfold zlen in LG; lia). assert (LP : length ps = length clusters) by (unfold ps; rewrite map_length, seq_length; reflexivity).
  split; [rewrite LL; apply F, Forall_forall; intros i I; apply in_seq in I; lia|].
  assert (Hr : rs <> []) by (intros ->; cbn in E; subst; contradiction).
  assert (NC : clusters <> []) by (apply clusters_ne; exact Hr).
  split.
  - unfold StringWidth. rewrite LG. destruct (Z.eqb_spec (zlen clusters) 0) as [Z0|_]; [destruct clusters; [contradiction|rewrite zlen_cons in Z0; pose proof (zlen_nonneg clusters); lia]|].
    pose proof (prepared Zzzz script_of asian_script matches Latn en_US c) as PR. destruct (prepare Zzzz script_of asian_script matches Latn en_US c) as [ctx c1] eqn:EP. cbn [fst snd] in *.
    replace (Z.to_nat (zlen clusters)) with (length ps) by (rewrite LP; unfold zlen; lia). rewrite (loop_sum script_of asian_script matches emoji kind_of ctx PR).
    + cbn [rbind]. rewrite Z.add_0_l. unfold zsum. do 3 f_equal. apply map_ext. intros p. pose proof (gw_rune c p) as GR. rewrite EP in GR. exact GR.
    + intros k Hk. rewrite Z.add_0_l, (N k) by lia. f_equal. unfold ps. rewrite (nth_indep _ [] (piece s (map shown clusters) 0)) by (rewrite map_length, seq_length; lia). rewrite map_nth, seq_nth by lia. reflexivity.
  - rewrite LG. unfold zlen. rewrite <- LP. clear. induction ps as [|p ps IH]; [cbn; lia|]. cbn [map fold_right length]. unfold rune_width at 1 3. destruct (_ || _); lia.
Qed.
(* The empty sum: a grapheme string without graphemes has width 0, and the context is not evaluated. *)
Theorem C27_no_graphemes : forall g c, Len g = 0 -> SW g c = Ok (0, c).
Proof. intros g c E. unfold StringWidth. rewrite E. reflexivity. Qed.
End Oracles.
Print Assumptions C27_every_string.
Print Assumptions C27_no_graphemes.
Example C27_no_graphemes_ex : Len (mkgs [] [0]) = 0 /\ Len (mkgs [] []) = 0.
Proof. split; reflexivity. Qed.
(* "A", U+0301, U+4E16, an illegal byte, "A": the widths 1 and 2 of the first two graphemes *)
Example C27_every_string_ex : let s := encode [65; 769; 19990] ++ [255; 65] in fst (DecodeRune s) <> RuneError /\
  (let* g := StringFromString tab pic 20 s in StringWidth 0 (fun x => x) (fun _ => false) (fun _ => false) (fun _ => false) kind_ex 1 2 g None) = Ok (3, None) /\
  map (fun p => rune_width (fun _ => false) kind_ex false (fst (DecodeRune p))) [encode [65; 769]; encode [19990]] = [1; 2].
Proof. split; [discriminate|]. split; vm_compute; reflexivity. Qed.

(* C46: the width is the recommendation of UAX#11 exactly for characters that are wide there, or neither emoji nor neutral in
   an East Asian context. *)
Theorem C46_right_iff :
  forall Zzzz script_of asian_script matches emoji kind_of Latn en_US n r t c, scalar r = true -> r <> RuneError ->
    let asian := east_asian Zzzz script_of asian_script matches c in
    exists w c', Width Zzzz script_of asian_script matches emoji kind_of Latn en_US (S n) (EncodeRune r ++ t) c = Ok (w, c') /\
      (w = (if uax11_wide asian (kind_of r) then 2 else 1) <-> uax11_wide asian (kind_of r) = true \/ (emoji r = false /\ (asian = true -> kind_of r <> Neutral))).
Proof.
  intros Zzzz script_of asian_script matches emoji kind_of Latn en_US n r t c Sc N asian.
  destruct (C46_width_value Zzzz script_of asian_script matches emoji kind_of Latn en_US n r t c Sc N) as [c' H]. eexists. exists c'. split; [exact H|]. fold asian. clear H.
  destruct (emoji r), asian, (kind_of r); cbn [uax11_wide orb andb]; intuition (try discriminate; try congruence).
Qed.
Print Assumptions C46_right_iff.
Example C46_right_iff_ex : exists (emoji : Z -> bool) kind_of r1 r2 r3, emoji r1 = true /\ kind_of r1 = EastAsianWide /\ emoji r2 = true /\ kind_of r2 = EastAsianNarrow /\ emoji r3 = false /\ kind_of r3 = Neutral.
Proof. exists (fun r => r <? 200), (fun r => if r =? 100 then EastAsianWide else if r =? 101 then EastAsianNarrow else Neutral), 100, 101, 300. repeat split. Qed.
