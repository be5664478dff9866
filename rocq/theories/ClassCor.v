(* ClassCor.v -- consequences of the class tables for ASCII, Hangul and U+FFFD texts; emoji classes. *)
From Coq Require Import List ZArith Lia Bool.
From Verif Require Import Base ClassTables WidthSpec Classes ClassProofs BreakSpec BreakSpecProofs ClusterWords.
From Verif Require Grapheme GraphemeSpec Words WordSpec.
Import ListNotations.
Open Scope Z_scope.

(* ---- ASCII ---- *)
Definition ascii_gclass (r : Z) : Z :=
  if r =? 0 then Grapheme.eot else if r =? 13 then Grapheme.CR else if r =? 10 then Grapheme.LF
  else if (r <? 32) || (r =? 127) then Grapheme.Control else Grapheme.Any.
Definition identifier (r : Z) : bool :=
  ((48 <=? r) && (r <=? 57)) || ((65 <=? r) && (r <=? 90)) || (r =? 95) || ((97 <=? r) && (r <=? 122)).
Definition identifier_wclass (r : Z) : Z :=
  if (48 <=? r) && (r <=? 57) then Words.Numeric else if r =? 95 then Words.ExtendNumLet else Words.ALetter.
Definition ascii : list Z := map Z.of_nat (seq 0 128).
Lemma ascii_in r : 0 <= r <= 127 -> In r ascii.
Proof. intros H. apply upto_in. lia. Qed.
Lemma gclass_ascii r : 0 <= r <= 127 -> gclass r = ascii_gclass r.
Proof.
  intros H. assert (A : forallb (fun r => gclass r =? ascii_gclass r) ascii = true) by (vm_cast_no_check (eq_refl true)).
  rewrite forallb_forall in A. apply Z.eqb_eq. exact (A r (ascii_in r H)).
Qed.
Lemma wclass_identifier r : identifier r = true -> wclass r = identifier_wclass r.
Proof.
  intros H. assert (A : forallb (fun r => negb (identifier r) || (wclass r =? identifier_wclass r)) ascii = true) by (vm_cast_no_check (eq_refl true)).
  rewrite forallb_forall in A. apply Z.eqb_eq. assert (R : 0 <= r <= 127) by (unfold identifier in H; lia).
  specialize (A r (ascii_in r R)). cbv beta in A. rewrite H in A. exact A.
Qed.
Lemma wclass_blank : wclass 32 = Words.WSegSpace.
Proof. vm_compute. reflexivity. Qed.
Local Opaque gclass wclass Is subset.

(* clusters of an ASCII text: single characters, except CR LF *)
Fixpoint ascii_clusters (text : list Z) : list (list Z) :=
  match text with
  | [] => []
  | r :: t => match t with
              | s :: u => if (r =? 13) && (s =? 10) then [13; 10] :: ascii_clusters u else [r] :: ascii_clusters t
              | [] => [[r]]
              end
  end.
Lemma ascii_break left r c right : 0 <= r <= 127 -> 0 <= c <= 127 ->
  GraphemeSpec.gb_break false gclass (r :: left) (c :: right) = negb ((r =? 13) && (c =? 10)).
Proof.
  intros R C. unfold GraphemeSpec.gb_break. cbn [map]. rewrite (gclass_ascii r R), (gclass_ascii c C). unfold ascii_gclass.
  destruct (Z.eqb_spec r 0), (Z.eqb_spec r 13), (Z.eqb_spec r 10), ((r <? 32) || (r =? 127)); try lia;
    destruct (Z.eqb_spec c 0), (Z.eqb_spec c 13), (Z.eqb_spec c 10), ((c <? 32) || (c =? 127)); try lia; reflexivity.
Qed.
Lemma ascii_split n : forall left text, (length text <= n)%nat -> Forall (fun r => 0 <= r <= 127) text ->
  split_text (GraphemeSpec.gb_break false gclass) left [] text = ascii_clusters text.
Proof.
  induction n as [|n IH]; intros left text L F; [destruct text; [reflexivity|cbn in L; lia]|].
  destruct text as [|r [|c u]]; [reflexivity|reflexivity|]. inversion F as [|? ? Fr F1]; subst. inversion F1 as [|? ? Fc F2]; subst.
  rewrite split_cons, ascii_break by assumption. cbn [ascii_clusters]. destruct ((r =? 13) && (c =? 10)) eqn:E; cbn [negb].
  - apply andb_true_iff in E. destruct E as [Er Ec]. apply Z.eqb_eq in Er, Ec. subst. destruct u as [|d u]; [reflexivity|].
    inversion F2 as [|? ? Fd F3]; subst. rewrite split_cons, ascii_break by assumption. change ((10 =? 13) && (d =? 10)) with false. cbn [negb].
    f_equal. apply IH; [cbn in *; lia|exact F2].
  - cbn [app]. f_equal. apply IH; [cbn in *; lia|exact F1].
Qed.
Lemma ascii_graphemes text : Forall (fun r => 0 <= r <= 127) text ->
  segmentation (GraphemeSpec.gb_break false gclass) text = ascii_clusters text.
Proof. intros F. exact (ascii_split (length text) [] text (le_n _) F). Qed.

(* words of a line of identifiers and blanks: where the kind changes *)
Definition kind_changes (left right : list Z) : bool :=
  match left, right with a :: _, c :: _ => xorb (a =? 32) (c =? 32) | _, _ => true end.
Lemma identifier_break adj left a c right : identifier a = true \/ a = 32 -> identifier c = true \/ c = 32 ->
  WordSpec.wb_break adj wclass (a :: left) (c :: right) = xorb (a =? 32) (c =? 32).
Proof.
  intros A C. unfold WordSpec.wb_break. cbn [map].
  assert (Na : identifier a = true -> (a =? 32) = false) by (unfold identifier; lia).
  assert (Nc : identifier c = true -> (c =? 32) = false) by (unfold identifier; lia).
  destruct A as [A| ->], C as [C| ->].
  - rewrite (Na A), (Nc C), (wclass_identifier a A), (wclass_identifier c C). unfold identifier_wclass.
    destruct ((48 <=? a) && (a <=? 57)), ((48 <=? c) && (c <=? 57)), (a =? 95), (c =? 95); cbn;
      rewrite ?andb_false_r; reflexivity.
  - rewrite (Na A), (wclass_identifier a A), wclass_blank. unfold identifier_wclass.
    destruct ((48 <=? a) && (a <=? 57)), (a =? 95); cbn; rewrite ?andb_false_r; reflexivity.
  - rewrite (Nc C), (wclass_identifier c C), wclass_blank. unfold identifier_wclass.
    destruct ((48 <=? c) && (c <=? 57)), (c =? 95); cbn; reflexivity.
  - rewrite wclass_blank. reflexivity.
Qed.
Lemma identifier_words adj text : Forall (fun r => identifier r = true \/ r = 32) text ->
  segmentation (WordSpec.wb_break adj wclass) text = segmentation kind_changes text.
Proof.
  intros F. apply segmentation_ext. intros l r Hl Hr E. subst text. apply Forall_app in F. destruct F as [Fl Fr].
  apply Forall_rev in Fl. destruct (rev l) as [|a left] eqn:El; [apply (f_equal (@rev Z)) in El; rewrite rev_involutive in El; contradiction|].
  destruct r as [|c r]; [contradiction|]. inversion Fl; subst. inversion Fr; subst. apply identifier_break; assumption.
Qed.

(* ---- Hangul ---- *)
Lemma syllable_class r : syllable r = true -> gclass r = Grapheme.cLV \/ gclass r = Grapheme.cLVT.
Proof.
  intros S. destruct (Z.eq_dec ((r - 44032) mod 28) 0).
  - left. apply gclass_LV. auto.
  - right. apply gclass_LVT. auto.
Qed.
Lemma syllables_apart text : Forall (fun r => syllable r = true) text ->
  segmentation (GraphemeSpec.gb_break false gclass) text = map (fun r => [r]) text.
Proof.
  intros F. unfold segmentation. assert (G : forall text left, Forall (fun r => syllable r = true) text ->
    split_text (GraphemeSpec.gb_break false gclass) left [] text = map (fun r => [r]) text); [|apply G; exact F].
  clear text F. induction text as [|r t IH]; intros left F; [reflexivity|]. inversion F as [|? ? Fr Ft]; subst.
  destruct t as [|s u]; [reflexivity|]. rewrite split_cons. inversion Ft as [|? ? Fs _]; subst.
  assert (B : GraphemeSpec.gb_break false gclass (r :: left) (s :: u) = true).
  { unfold GraphemeSpec.gb_break. cbn [map]. destruct (syllable_class r Fr) as [-> | ->], (syllable_class s Fs) as [-> | ->]; reflexivity. }
  rewrite B. cbn [app map]. f_equal. apply IH. exact Ft.
Qed.
(* a syllable with a trailing consonant, given as conjoining letters in any of the ways of UAX#15 *)
Lemma jamo_glued (l v t : Z) left : 4352 <= l <= 4447 -> 4448 <= v <= 4519 -> 4520 <= t <= 4607 ->
  GraphemeSpec.gb_break false gclass (l :: left) [v] = false /\ GraphemeSpec.gb_break false gclass (v :: left) [t] = false /\
  forall s, syllable s = true -> GraphemeSpec.gb_break false gclass (s :: left) [t] = false /\
    GraphemeSpec.gb_break false gclass (l :: left) [s] = false /\
    (GraphemeSpec.gb_break false gclass (s :: left) [v] = false <-> (s - 44032) mod 28 = 0).
Proof.
  intros L V T. assert (EL : gclass l = Grapheme.cL) by (apply gclass_L; auto). assert (EV : gclass v = Grapheme.cV) by (apply gclass_V; auto).
  assert (ET : gclass t = Grapheme.cT) by (apply gclass_T; auto). unfold GraphemeSpec.gb_break. cbn [map]. rewrite EL, EV, ET.
  split; [reflexivity|]. split; [reflexivity|]. intros s S. destruct (Z.eq_dec ((s - 44032) mod 28) 0) as [D|D].
  - assert (ES : gclass s = Grapheme.cLV) by (apply gclass_LV; auto). rewrite ES. split; [reflexivity|]. split; [reflexivity|]. split; auto.
  - assert (ES : gclass s = Grapheme.cLVT) by (apply gclass_LVT; auto). rewrite ES. split; [reflexivity|]. split; [reflexivity|].
    split; [cbn; discriminate|contradiction].
Qed.

(* ---- U+FFFD ---- *)
Lemma gclass_fffd : gclass 65533 = Grapheme.Control.
Proof. apply gclass_table; [unfold Grapheme.Control; lia|]. split; [lia|]. vm_cast_no_check (eq_refl true). Qed.
Lemma fffd_cut prepend l x r : In (S (length l)) (bounds 0 (segmentation (GraphemeSpec.gb_break prepend gclass) (l ++ 65533 :: x :: r))).
Proof.
  replace (l ++ 65533 :: x :: r) with ((l ++ [65533]) ++ x :: r) by (rewrite <- app_assoc; reflexivity).
  assert (L : length (l ++ [65533]) = S (length l)) by (rewrite app_length; cbn; lia).
  apply segmentation_bounds; [rewrite app_length; cbn [length]; lia|]. rewrite <- L.
  rewrite firstn_app, Nat.sub_diag, firstn_all, skipn_app, Nat.sub_diag, skipn_all. cbn [firstn skipn app]. rewrite app_nil_r, rev_app_distr. cbn [rev app].
  unfold GraphemeSpec.gb_break. cbn [map]. rewrite gclass_fffd. reflexivity.
Qed.

(* ---- emoji ---- *)
Lemma presentation_emoji : subset EmojiTab.Emoji_Presentation EmojiTab.Emoji = true /\ subset EmojiTab.Emoji_Modifier EmojiTab.Emoji = true /\
  subset EmojiTab.Emoji_Modifier_Base EmojiTab.Emoji = true.
Proof. split; [|split]; vm_cast_no_check (eq_refl true). Qed.
Lemma eclass_value r : eclass r = if etable 0 r then 0 else if etable 4 r then 4 else if etable 5 r then 5 else -1.
Proof.
  unfold eclass, EmojisClassForRune. cbn [find]. destruct (etable 0 r) eqn:E; [reflexivity|].
  assert (N : forall t, subset t EmojiTab.Emoji = true -> Is t r = false).
  { intros t S. destruct (Is t r) eqn:X; [|reflexivity]. rewrite <- E. symmetry. exact (subset_sound _ _ r S X). }
  destruct presentation_emoji as (S1 & S2 & S3).
  assert (E1 : etable 1 r = false) by exact (N _ S1). assert (E2 : etable 2 r = false) by exact (N _ S2). assert (E3 : etable 3 r = false) by exact (N _ S3).
  rewrite E1, E2, E3. destruct (etable 4 r); [reflexivity|]. destruct (etable 5 r); reflexivity.
Qed.
Lemma emoji_parts : subset EmojiTab.Emoji (EmojiTab.Emoji_Component ++ EmojiTab.Extended_Pictographic) = true.
Proof. vm_cast_no_check (eq_refl true). Qed.
Lemma modifier_base_pict : subset EmojiTab.Emoji_Modifier_Base EmojiTab.Extended_Pictographic = true.
Proof. vm_cast_no_check (eq_refl true). Qed.
(* keycap base characters *)
Lemma emoji_ascii r : 0 <= r <= 127 -> etable 0 r = ((48 <=? r) && (r <=? 57)) || (r =? 35) || (r =? 42).
Proof.
  intros H. assert (A : forallb (fun r => Bool.eqb (etable 0 r) (((48 <=? r) && (r <=? 57)) || (r =? 35) || (r =? 42))) ascii = true) by (vm_cast_no_check (eq_refl true)).
  rewrite forallb_forall in A. apply eqb_prop. exact (A r (ascii_in r H)).
Qed.
