(* ClusterWords.v -- with the tables of the repository, word boundaries do not divide grapheme clusters. *)
From Coq Require Import List ZArith Lia Bool.
From Verif Require Import Base ClassTables Classes ClassProofs BreakSpec BreakSpecProofs.
From Verif Require Grapheme GraphemeSpec Words WordSpec.
Import ListNotations.
Open Scope Z_scope.
Local Opaque gclass wclass Is subset.

(* ---- the two properties of one character ---- *)
Lemma newline_class r : WordSpec.newline (wclass r) = true -> GraphemeSpec.newline_or_control (gclass r) = true.
Proof.
  unfold WordSpec.newline, GraphemeSpec.newline_or_control, GraphemeSpec.is_one_of. cbn [existsb]. rewrite !orb_true_iff, !Z.eqb_eq.
  intros [[W|W]|W].
  - apply wclass_table in W; [|unfold Words.Newline; lia]. destruct W as [R W]. left. apply gclass_table; [unfold Grapheme.Control; lia|].
    split; [exact R|]. apply (subset_sound WordTab.Newline GraphemeTab.Control); [vm_cast_no_check (eq_refl true)|exact W].
  - right; left. apply wclass_CR in W. now apply gclass_CR.
  - right; right; left. apply wclass_LF in W. now apply gclass_LF.
Qed.
Lemma hangul_letters : subset GraphemeTab.L WordTab.ALetter = true /\ subset GraphemeTab.V WordTab.ALetter = true /\
  subset GraphemeTab.T WordTab.ALetter = true /\ subset GraphemeTab.LV WordTab.ALetter = true /\ subset GraphemeTab.LVT WordTab.ALetter = true.
Proof. split; [|split; [|split; [|split]]]; vm_cast_no_check (eq_refl true). Qed.
Lemma hangul_class r : GraphemeSpec.is_one_of (gclass r) [Grapheme.cL; Grapheme.cV; Grapheme.cT; Grapheme.cLV; Grapheme.cLVT] = true ->
  wclass r = Words.ALetter.
Proof.
  unfold GraphemeSpec.is_one_of. cbn [existsb]. rewrite !orb_true_iff, !Z.eqb_eq. intros H.
  apply wclass_table; [unfold Words.ALetter; lia|].
  destruct H as [H|[H|[H|[H|[H|H]]]]]; [..|discriminate];
    (apply gclass_table in H; [|unfold Grapheme.cL, Grapheme.cV, Grapheme.cT, Grapheme.cLV, Grapheme.cLVT; lia]); destruct H as [R H]; (split; [exact R|]).
  - exact (subset_sound _ _ r (proj1 hangul_letters) H).
  - exact (subset_sound _ _ r (proj1 (proj2 hangul_letters)) H).
  - exact (subset_sound _ _ r (proj1 (proj2 (proj2 hangul_letters))) H).
  - exact (subset_sound _ _ r (proj1 (proj2 (proj2 (proj2 hangul_letters)))) H).
  - exact (subset_sound _ _ r (proj2 (proj2 (proj2 (proj2 hangul_letters)))) H).
Qed.
(* SARA AM in Thai and Lao *)
Definition sara_am : ranges := [(3635, 3635); (3763, 3763)].
Definition ignorable : ranges := WordTab.Extend ++ WordTab.Format ++ WordTab.ZWJ ++ sara_am.
Lemma ignorable_spec r : Is ignorable r = Is WordTab.Extend r || (Is WordTab.Format r || (Is WordTab.ZWJ r || Is sara_am r)).
Proof. unfold ignorable. now rewrite !Is_app. Qed.
Lemma marks_ignored : subset GraphemeTab.Extend ignorable = true /\ subset GraphemeTab.ZWJ ignorable = true /\
  subset GraphemeTab.SpacingMark ignorable = true.
Proof. split; [|split]; vm_cast_no_check (eq_refl true). Qed.
Lemma mark_class r : GraphemeSpec.is_one_of (gclass r) [Grapheme.Extend; Grapheme.ZWJ; Grapheme.SpacingMark] = true -> Is sara_am r = false ->
  WordSpec.extend (wclass r) = true.
Proof.
  unfold GraphemeSpec.is_one_of. cbn [existsb]. rewrite !orb_true_iff, !Z.eqb_eq. intros H N.
  assert (X : r <> 0 /\ Is ignorable r = true).
  { destruct H as [H|[H|[H|H]]]; [..|discriminate];
      (apply gclass_table in H; [|unfold Grapheme.Extend, Grapheme.ZWJ, Grapheme.SpacingMark; lia]); destruct H as [R H]; (split; [exact R|]).
    - exact (subset_sound _ _ r (proj1 marks_ignored) H).
    - exact (subset_sound _ _ r (proj1 (proj2 marks_ignored)) H).
    - exact (subset_sound _ _ r (proj2 (proj2 marks_ignored)) H). }
  destruct X as [R X]. rewrite ignorable_spec, N, orb_false_r, !orb_true_iff in X. unfold WordSpec.extend. rewrite !orb_true_iff, !Z.eqb_eq.
  rewrite !wclass_table by (unfold Words.Extend, Words.Format, Words.ZWJ; lia).
  change (wtable Words.Extend r) with (Is WordTab.Extend r). change (wtable Words.Format r) with (Is WordTab.Format r).
  change (wtable Words.ZWJ r) with (Is WordTab.ZWJ r). tauto.
Qed.
Lemma joiner_class r : gclass r = Grapheme.ZWJ -> wclass r = Words.ZWJ.
Proof.
  intros H. apply gclass_table in H; [|unfold Grapheme.ZWJ; lia]. apply wclass_table; [unfold Words.ZWJ; lia|]. exact H.
Qed.
Lemma RI_class r : gclass r = Grapheme.RI <-> wclass r = Words.RI.
Proof. now rewrite gclass_RI, wclass_RI. Qed.

(* ---- runs of regional indicators ---- *)
(* nearest first: no ignored character stands behind a regional indicator *)
Definition bare_flags_left (left : list Z) : Prop :=
  forall p x y q, left = p ++ x :: y :: q -> wclass y = Words.RI -> WordSpec.extend (wclass x) = false.
Lemma bare_tail x l : bare_flags_left (x :: l) -> bare_flags_left l.
Proof. intros B p a b q E. apply (B (x :: p) a b q). rewrite E. reflexivity. Qed.
Lemma ri_run_ignored l : bare_flags_left l -> (forall x t, l = x :: t -> WordSpec.extend (wclass x) = true) -> WordSpec.ri_run (map wclass l) = 0%nat.
Proof.
  induction l as [|x l IH]; intros B X; [reflexivity|]. cbn [map WordSpec.ri_run]. pose proof (X x l eq_refl) as E. rewrite E.
  destruct l as [|y l]; [reflexivity|]. destruct (WordSpec.extend (wclass y)) eqn:Ey.
  - apply IH; [eapply bare_tail; exact B|]. intros z t Z. injection Z as -> ->. exact Ey.
  - cbn [map WordSpec.ri_run]. rewrite Ey. destruct (Z.eqb_spec (wclass y) Words.RI) as [R|]; [|reflexivity].
    rewrite (B [] x y l eq_refl R) in E. discriminate.
Qed.
Lemma ri_runs l : bare_flags_left l -> WordSpec.ri_run (map wclass l) = GraphemeSpec.ri_run (map gclass l).
Proof.
  induction l as [|x l IH]; intros B; [reflexivity|]. cbn [map GraphemeSpec.ri_run].
  destruct (Z.eqb_spec (gclass x) Grapheme.RI) as [R|N].
  - apply RI_class in R. cbn [WordSpec.ri_run]. rewrite R. cbn. rewrite <- IH by (eapply bare_tail; exact B). reflexivity.
  - destruct (WordSpec.extend (wclass x)) eqn:E.
    + apply (ri_run_ignored (x :: l) B). intros z t Z. injection Z as -> ->. exact E.
    + cbn [WordSpec.ri_run]. rewrite E. destruct (Z.eqb_spec (wclass x) Words.RI) as [R|]; [|reflexivity]. apply RI_class in R. contradiction.
Qed.

(* ---- a word boundary is a cluster boundary ---- *)
(* characters that the two sets of rules see differently *)
Definition uneven : ranges := sara_am ++ letter_pictographics.
Lemma word_cluster adj left right : bare_flags_left left -> Forall (fun r => Is uneven r = false) right ->
  WordSpec.wb_break adj wclass left right = true -> GraphemeSpec.gb_break false gclass left right = true.
Proof.
  intros B U W. destruct right as [|r after]; [reflexivity|]. inversion U as [|? ? Ur _]; subst. unfold uneven in Ur.
  rewrite Is_app, orb_false_iff in Ur. destruct Ur as [Us Ul].
  unfold GraphemeSpec.gb_break. destruct left as [|x before]; [reflexivity|]. cbn [map].
  destruct (GraphemeSpec.gb_boundary false (gclass x :: map gclass before) (gclass r)) eqn:G; [reflexivity|]. exfalso.
  revert W. unfold WordSpec.wb_break. apply not_true_iff_false. cbn [map]. unfold WordSpec.wb_boundary. unfold GraphemeSpec.gb_boundary in G.
  destruct ((gclass x =? Grapheme.CR) && (gclass r =? Grapheme.LF)) eqn:G3.
  { apply andb_true_iff in G3. destruct G3 as [A C]. apply Z.eqb_eq in A, C. apply gclass_CR, wclass_CR in A. apply gclass_LF, wclass_LF in C. rewrite A, C. reflexivity. }
  destruct ((wclass x =? Words.CR) && (wclass r =? Words.LF)); [reflexivity|].
  destruct (GraphemeSpec.newline_or_control (gclass x)) eqn:G4; [discriminate|].
  destruct (GraphemeSpec.newline_or_control (gclass r)) eqn:G5; [discriminate|].
  destruct (WordSpec.newline (wclass x)) eqn:W3; [apply newline_class in W3; congruence|].
  destruct (WordSpec.newline (wclass r)) eqn:W4; [apply newline_class in W4; congruence|].
  destruct ((wclass x =? Words.ZWJ) && (wclass r =? Words.Pictographic)) eqn:W3c; [reflexivity|].
  destruct ((wclass x =? Words.WSegSpace) && (wclass r =? Words.WSegSpace)); [reflexivity|].
  destruct (WordSpec.extend (wclass r)) eqn:W4'; [reflexivity|].
  assert (HH : forall a b, GraphemeSpec.is_one_of (gclass x) [Grapheme.cL; Grapheme.cV; Grapheme.cT; Grapheme.cLV; Grapheme.cLVT] = true ->
    GraphemeSpec.is_one_of (gclass r) [Grapheme.cL; Grapheme.cV; Grapheme.cT; Grapheme.cLV; Grapheme.cLVT] = true ->
    (if WordSpec.one WordSpec.AHLetter (wclass x :: map wclass before) && WordSpec.AHLetter (wclass r) then false else a) = b -> b = false).
  { intros a b Hx Hr. apply hangul_class in Hx, Hr. rewrite Hx, Hr. cbn. auto. }
  destruct ((gclass x =? Grapheme.cL) && GraphemeSpec.is_one_of (gclass r) [Grapheme.cL; Grapheme.cV; Grapheme.cLV; Grapheme.cLVT]) eqn:G6.
  { apply andb_true_iff in G6. destruct G6 as [A C]. eapply HH; [| |reflexivity]; unfold GraphemeSpec.is_one_of in *; cbn [existsb] in *; lia. }
  destruct (GraphemeSpec.is_one_of (gclass x) [Grapheme.cLV; Grapheme.cV] && GraphemeSpec.is_one_of (gclass r) [Grapheme.cV; Grapheme.cT]) eqn:G7.
  { apply andb_true_iff in G7. destruct G7 as [A C]. eapply HH; [| |reflexivity]; unfold GraphemeSpec.is_one_of in *; cbn [existsb] in *; lia. }
  destruct (GraphemeSpec.is_one_of (gclass x) [Grapheme.cLVT; Grapheme.cT] && (gclass r =? Grapheme.cT)) eqn:G8.
  { apply andb_true_iff in G8. destruct G8 as [A C]. eapply HH; [| |reflexivity]; unfold GraphemeSpec.is_one_of in *; cbn [existsb] in *; lia. }
  clear HH.
  assert (M : GraphemeSpec.is_one_of (gclass r) [Grapheme.Extend; Grapheme.ZWJ; Grapheme.SpacingMark] = false).
  { destruct (GraphemeSpec.is_one_of (gclass r) [Grapheme.Extend; Grapheme.ZWJ; Grapheme.SpacingMark]) eqn:M; [|reflexivity]. rewrite (mark_class r M Us) in W4'. discriminate. }
  unfold GraphemeSpec.is_one_of in M. cbn [existsb] in M. rewrite orb_false_r, !orb_false_iff in M. destruct M as (M1 & M2 & M3).
  unfold GraphemeSpec.is_one_of in G. cbn [existsb] in G. rewrite M1, M2, M3 in G. cbn [orb andb] in G.
  destruct ((gclass x =? Grapheme.ZWJ) && (gclass r =? Grapheme.Pictographic)) eqn:G11.
  { apply andb_true_iff in G11. destruct G11 as [A C]. apply Z.eqb_eq in A, C. apply joiner_class in A. apply gclass_pict in C.
    rewrite A, (proj2 (wclass_pict r) (conj C Ul)) in W3c. discriminate. }
  cbn [andb] in G. destruct ((gclass x =? Grapheme.RI) && (gclass r =? Grapheme.RI)) eqn:G12; [|discriminate].
  cbn [andb] in G. apply andb_true_iff in G12. destruct G12 as [A C]. apply Z.eqb_eq in A, C.
  change (gclass x :: map gclass before) with (map gclass (x :: before)) in G. rewrite <- (ri_runs _ B) in G. cbn [map] in G.
  apply RI_class in A, C. rewrite A, C. rewrite A in G. change (WordSpec.AHLetter Words.RI) with false. 
  destruct (Nat.odd (WordSpec.ri_run (Words.RI :: map wclass before))); [|discriminate]. cbn. reflexivity.
Qed.

(* ---- on texts ---- *)
(* no mark, format character or joiner stands behind a regional indicator *)
Definition bare_flags (text : list Z) : Prop :=
  forall p x y q, text = p ++ x :: y :: q -> wclass x = Words.RI -> WordSpec.extend (wclass y) = false.
Lemma bare_left text i : bare_flags text -> bare_flags_left (rev (firstn i text)).
Proof.
  intros B p x y q E R. apply (B (rev q) y x (rev p ++ skipn i text)); [|exact R].
  apply (f_equal (@rev Z)) in E. rewrite rev_involutive, rev_app_distr in E. cbn [rev] in E. rewrite <- !app_assoc in E. cbn [app] in E.
  rewrite <- (firstn_skipn i text) at 1. rewrite E, <- app_assoc. reflexivity.
Qed.
Lemma bounds_last {C} (segs : list (list C)) : forall k, segs <> [] -> In (k + length (concat segs))%nat (bounds k segs).
Proof.
  induction segs as [|w segs IH]; intros k N; [congruence|]. cbn [concat bounds]. rewrite app_length. destruct segs as [|v segs].
  - left. cbn. lia.
  - right. replace (k + (length w + length (concat (v :: segs))))%nat with (k + length w + length (concat (v :: segs)))%nat by lia. apply IH. discriminate.
Qed.
Lemma bounds_le {C} (segs : list (list C)) : forall k x, In x (bounds k segs) -> (x <= k + length (concat segs))%nat.
Proof.
  induction segs as [|w segs IH]; intros k x I; [contradiction|]. cbn [concat bounds] in *. rewrite app_length. destruct I as [<-|I]; [lia|].
  apply IH in I. lia.
Qed.
Lemma segmentation_incl {C} (b1 b2 : list C -> list C -> bool) text :
  (forall i, (0 < i < length text)%nat -> b1 (rev (firstn i text)) (skipn i text) = true -> b2 (rev (firstn i text)) (skipn i text) = true) ->
  incl (bounds 0 (segmentation b1 text)) (bounds 0 (segmentation b2 text)).
Proof.
  intros H i I. pose proof (bounds_le _ _ _ I) as L. rewrite segmentation_concat in L. cbn in L.
  pose proof (bounds_gt _ _ _ (split_nonempty b1 text [] []) I) as G.
  destruct (Nat.eq_dec i (length text)) as [->|N].
  - rewrite <- (segmentation_concat b2 text) at 1. apply (bounds_last (segmentation b2 text) 0). intros E. apply (f_equal (@concat C)) in E. rewrite segmentation_concat in E.
    cbn in E. subst. cbn in G. lia.
  - apply segmentation_bounds; [lia|]. apply H; [lia|]. apply segmentation_bounds; [lia|exact I].
Qed.
Lemma words_of_clusters adj text : bare_flags text -> Forall (fun r => Is uneven r = false) text ->
  incl (bounds 0 (segmentation (WordSpec.wb_break adj wclass) text)) (bounds 0 (segmentation (GraphemeSpec.gb_break false gclass) text)).
Proof.
  intros B U. apply segmentation_incl. intros i _. apply word_cluster; [apply bare_left; exact B|].
  rewrite Forall_forall in *. intros r R. apply U. rewrite <- (firstn_skipn i text). apply in_or_app. auto.
Qed.
