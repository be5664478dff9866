(* GStringProofs.v -- grapheme strings index their clusters. *)
From Coq Require Import List ZArith Lia Bool.
From Verif Require Import Base RuneWrite Segmenter SegInv Utf8 Utf8Proofs Grapheme GraphemeSpec BreakSpec BreakSpecProofs GraphemeProofs GString.
Import ListNotations.
Open Scope Z_scope.

Definition sized (r : Z) : Z * Z := (r, zlen (EncodeRune r)).
(* a legal rune that the reader does not take for the end *)
Definition proper (r : Z) : Prop := scalar r = true /\ r <> RuneError.

Lemma encode_app a b : encode (a ++ b) = encode a ++ encode b.
Proof. unfold encode. now rewrite map_app, concat_app. Qed.
Lemma encode_cons r l : encode (r :: l) = EncodeRune r ++ encode l.
Proof. reflexivity. Qed.
Lemma encode_concat ls : encode (concat ls) = concat (map encode ls).
Proof. induction ls as [|l t IH]; [reflexivity|]. cbn [concat map]. now rewrite encode_app, IH. Qed.
Lemma encode_ge l : (length l <= length (encode l))%nat.
Proof.
  induction l as [|r l IH]; [cbn; lia|]. rewrite encode_cons, app_length. cbn [length]. pose proof (encode_len r). unfold zlen in *. lia.
Qed.
Lemma sizes_encode rs : sizes (map sized rs) = zlen (encode rs).
Proof.
  induction rs as [|r t IH]; [reflexivity|]. rewrite encode_cons, zlen_app, <- IH. reflexivity.
Qed.
Lemma fst_sized rs : map fst (map sized rs) = rs.
Proof. rewrite map_map. cbn. apply map_id. Qed.

Lemma skipn_zlen {A} (a b : list A) : skipn (Z.to_nat (zlen a)) (a ++ b) = b.
Proof. unfold zlen. rewrite Nat2Z.id. rewrite skipn_app, skipn_all, Nat.sub_diag. reflexivity. Qed.

Lemma rr_valid : forall rs n rest, (length rs <= n)%nat -> Forall proper rs -> fst (DecodeRune rest) = RuneError ->
  rr_items n (encode rs ++ rest) = map sized rs.
Proof.
  induction rs as [|r t IH]; intros n rest Hn P D.
  - cbn [encode map concat app]. destruct n as [|n]; [reflexivity|]. cbn [rr_items].
    destruct (DecodeRune rest) as [x w]. cbn [fst] in D. subst x. reflexivity.
  - destruct n as [|n]; [cbn [length] in Hn; lia|]. inversion P as [|? ? [S N] P']; subst.
    cbn [rr_items]. rewrite encode_cons, <- app_assoc. rewrite decode_encode by exact S.
    destruct (Z.eqb_spec r RuneError); [contradiction|]. rewrite skipn_zlen. cbn [map]. f_equal. apply IH; auto. cbn [length] in Hn. lia.
Qed.

Lemma rr_any : forall n s, (length s <= n)%nat -> Forall byte s ->
  exists rs rest, s = encode rs ++ rest /\ Forall proper rs /\ fst (DecodeRune rest) = RuneError.
Proof.
  induction n as [|n IH]; intros s Hn B.
  - destruct s; [|cbn in Hn; lia]. exists [], []. repeat split; constructor.
  - destruct (Z.eq_dec (fst (DecodeRune s)) RuneError) as [E|E].
    { exists [], s. repeat split; [constructor|exact E]. }
    destruct (decode_sound s B) as [[X _]|(S & W & Eq)]; [contradiction|].
    pose proof (encode_len (fst (DecodeRune s))) as L.
    destruct (IH (skipn (Z.to_nat (snd (DecodeRune s))) s)) as (rs & rest & Es & P & D).
    { rewrite skipn_length, W. unfold zlen in *. lia. }
    { rewrite <- (firstn_skipn (Z.to_nat (snd (DecodeRune s))) s) in B. apply Forall_app in B. apply B. }
    exists (fst (DecodeRune s) :: rs), rest. split; [|split; [constructor; [split; assumption|exact P]|exact D]].
    rewrite encode_cons, <- app_assoc, <- Es. exact Eq.
Qed.

(* offsets of the clusters *)
Definition offset (segs : list (list Z)) (i : nat) : Z := zlen (encode (concat (firstn i segs))).
Lemma offset_le segs i : 0 <= offset segs i <= zlen (encode (concat segs)).
Proof.
  unfold offset. split; [apply zlen_nonneg|]. rewrite <- (firstn_skipn i segs) at 2. rewrite concat_app, encode_app, zlen_app.
  pose proof (zlen_nonneg (encode (concat (skipn i segs)))). lia.
Qed.
Lemma breaks_len bits : forall segs br, length (break_loop bits br segs) = length segs.
Proof. induction segs as [|g t IH]; intros br; [reflexivity|]. cbn [break_loop length]. now rewrite IH. Qed.
Lemma breaks_nth bits : forall segs br i, 0 <= br -> br + zlen (encode (concat segs)) < 2 ^ bits -> (i < length segs)%nat ->
  nth_error (break_loop bits br segs) i = Some (br + offset segs (S i)).
Proof.
  induction segs as [|g t IH]; intros br i Hb Hs Hi; [cbn in Hi; lia|].
  cbn [concat] in Hs. rewrite encode_app, zlen_app in Hs. pose proof (zlen_nonneg (encode g)). pose proof (zlen_nonneg (encode (concat t))).
  unfold offset. rewrite firstn_cons. cbn [concat break_loop]. rewrite encode_app, zlen_app.
  destruct i as [|i]; cbn [nth_error].
  - rewrite Z.mod_small by lia. rewrite firstn_O. cbn [concat encode map]. rewrite zlen_nil. f_equal. lia.
  - rewrite IH; [|lia|lia|cbn [length] in Hi; lia]. unfold offset. f_equal. lia.
Qed.
Lemma breaks_get bits segs i : zlen (encode (concat segs)) < 2 ^ bits -> (i <= length segs)%nat ->
  zget (0 :: break_loop bits 0 segs) (Z.of_nat i) = Some (offset segs i).
Proof.
  intros Hs Hi. rewrite zget_cons by lia. destruct i as [|i].
  - cbn [Z.of_nat Z.eqb]. unfold offset. rewrite firstn_O. reflexivity.
  - rewrite (proj2 (Z.eqb_neq _ _)) by lia. unfold zget, zlen. rewrite breaks_len. replace (Z.of_nat (S i) - 1) with (Z.of_nat i) by lia.
    rewrite (proj2 (Z.leb_le _ _)), (proj2 (Z.ltb_lt _ _)) by lia. cbn [andb]. rewrite Nat2Z.id. rewrite breaks_nth by lia. reflexivity.
Qed.

Section Table.
Context (table : Z -> Z -> bool) (pict : Z -> bool).
Let cls := CodePointClassFor table pict.
Let clusters (rs : list Z) : list (list Z) := segmentation (gb_break false cls) rs.
Let cut (l : list (list Z)) : list (list Z) := map (firstn (Z.to_nat 4096)) l.

Lemma clusters_concat rs : concat (clusters rs) = rs.
Proof. apply segmentation_concat. Qed.
Lemma cut_le l : zlen (encode (concat (cut l))) <= zlen (encode (concat l)).
Proof.
  induction l as [|g t IH]; [cbn; lia|]. unfold cut in *. cbn [map concat]. rewrite !encode_app, !zlen_app.
  assert (H : zlen (encode g) = zlen (encode (firstn (Z.to_nat 4096) g)) + zlen (encode (skipn (Z.to_nat 4096) g))).
  { rewrite <- zlen_app, <- encode_app, firstn_skipn. reflexivity. }
  pose proof (zlen_nonneg (encode (skipn (Z.to_nat 4096) g))). lia.
Qed.

Definition width_bits (s : list Z) : Z := if zlen s <? 255 then 8 else 16.
(* what is built from s = encode rs ++ rest *)
Definition built (s rs : list Z) : gstring := mkgs s (0 :: break_loop (width_bits s) 0 (cut (clusters rs))).

Lemma build n rs rest : let s := encode rs ++ rest in
  rs <> [] -> Forall proper rs -> fst (DecodeRune rest) = RuneError -> zlen s < 65535 -> (length rs + 1 < n)%nat ->
  StringFromString table pict n s = Ok (built s rs).
Proof.
  intros s Hr P D L Hn. unfold StringFromString, built, width_bits.
  assert (M : forall bits, makeString table pict bits n s = Ok (mkgs s (0 :: break_loop bits 0 (cut (clusters rs))))).
  { intros bits. unfold makeString, prepareBreaking. destruct n as [|n]; [lia|].
    assert (E : rr_items (length s) s = map sized rs).
    { apply rr_valid; auto. subst s. rewrite app_length. pose proof (encode_ge rs). lia. }
    destruct rs as [|r t]; [contradiction|]. inversion P as [|? ? [Sc N] P']; subst.
    rewrite position_good. 2:{ subst s. rewrite encode_cons, <- app_assoc, decode_encode; assumption. }
    cbn [rbind]. rewrite slice_all. cbn [lift rbind]. unfold rr. rewrite E.
    destruct (grapheme_reader table pict (map sized (r :: t)) (S n)) as (s1 & outs & s' & I & Lp & O & _).
    { apply Forall_forall. intros x Hx. apply in_map_iff in Hx. destruct Hx as (y & <- & _). cbn. apply encode_len. }
    { rewrite sizes_encode. subst s. rewrite zlen_app in L. pose proof (zlen_nonneg rest). unfold MaxInt. lia. }
    { rewrite map_length. exact Hn. }
    rewrite I. cbn [rbind]. rewrite Lp. cbn [rbind]. rewrite O, fst_sized. reflexivity. }
  destruct (Z.ltb_spec (zlen s) 255); [apply M|]. destruct (Z.ltb_spec (zlen s) 65535); [apply M|lia].
Qed.

Lemma clusters_ne rs : rs <> [] -> clusters rs <> [].
Proof. intros H E. apply H. rewrite <- (clusters_concat rs), E. reflexivity. Qed.

Lemma built_len s rs : rs <> [] -> Len (built s rs) = zlen (clusters rs).
Proof.
  intros H. apply clusters_ne in H. unfold Len, built, zlen. cbn [breaks length]. rewrite breaks_len. unfold cut. rewrite map_length.
  destruct (clusters rs) as [|c t] eqn:E; [contradiction|]. cbn [length]. destruct (Z.ltb_spec (Z.of_nat (S (S (length t)))) 2); lia.
Qed.

Lemma built_nth rs rest i : let s := encode rs ++ rest in rs <> [] -> zlen s < 65535 -> (i < length (clusters rs))%nat ->
  Nth (built s rs) (Z.of_nat i) = lift (zslice s (offset (cut (clusters rs)) i) (offset (cut (clusters rs)) (S i))).
Proof.
  intros s Hr L Hi. unfold Nth, built. cbn [breaks content].
  assert (Hl : zlen (0 :: break_loop (width_bits s) 0 (cut (clusters rs))) = Z.of_nat (length (clusters rs)) + 1).
  { unfold zlen. cbn [length]. rewrite breaks_len. unfold cut. rewrite map_length. lia. }
  rewrite Hl. rewrite if_false. 2:{ destruct (Z.ltb_spec (Z.of_nat i) 0); [lia|]. cbn [orb]. rewrite Z.gtb_ltb. apply Z.ltb_ge. lia. }
  rewrite (proj2 (Z.ltb_ge _ _)) by lia.
  assert (B : zlen (encode (concat (cut (clusters rs)))) < 2 ^ width_bits s).
  { pose proof (cut_le (clusters rs)) as C. rewrite clusters_concat in C. assert (zlen (encode rs) <= zlen s).
    { subst s. rewrite zlen_app. pose proof (zlen_nonneg rest). lia. }
    unfold width_bits. destruct (Z.ltb_spec (zlen s) 255); [change (2 ^ 8) with 256; lia|change (2 ^ 16) with 65536; lia]. }
  rewrite breaks_get; [|exact B|unfold cut; rewrite map_length; lia]. cbn [lift rbind].
  replace (Z.of_nat i + 1) with (Z.of_nat (S i)) by lia. rewrite breaks_get; [|exact B|unfold cut; rewrite map_length; lia]. reflexivity.
Qed.

Lemma nth_out s rs i : rs <> [] -> ~ 0 <= i < zlen (clusters rs) -> Nth (built s rs) i = Panic.
Proof.
  intros H N. apply clusters_ne in H. unfold Nth, built. cbn [breaks].
  assert (Hl : zlen (0 :: break_loop (width_bits s) 0 (cut (clusters rs))) = zlen (clusters rs) + 1).
  { unfold zlen. cbn [length]. rewrite breaks_len. unfold cut. rewrite map_length. lia. }
  rewrite Hl. apply if_true. destruct (clusters rs) as [|c t]; [contradiction|]. rewrite zlen_cons in *. pose proof (zlen_nonneg t).
  apply orb_true_iff. rewrite Z.gtb_ltb, !Z.ltb_lt. lia.
Qed.

Lemma cut_small l : Forall (fun g => zlen g <= 4096) l -> cut l = l.
Proof.
  induction 1 as [|g t H _ IH]; [reflexivity|]. unfold cut in *. cbn [map]. rewrite IH. f_equal. apply firstn_all2. unfold zlen in H. lia.
Qed.

Lemma offset_S segs i : (i < length segs)%nat -> offset segs (S i) = offset segs i + zlen (encode (nth i segs [])).
Proof.
  intros H. unfold offset. rewrite (GraphemeProofs.firstn_S segs i [] H). rewrite concat_app, encode_app, zlen_app. cbn [concat]. rewrite app_nil_r. reflexivity.
Qed.
Lemma slice_cluster segs rest i : (i < length segs)%nat ->
  zslice (encode (concat segs) ++ rest) (offset segs i) (offset segs (S i)) = Some (encode (nth i segs [])).
Proof.
  intros H. rewrite offset_S by exact H. unfold zslice. pose proof (offset_le segs i). pose proof (offset_le segs (S i)) as B. rewrite offset_S in B by exact H.
  pose proof (zlen_nonneg (encode (nth i segs []))). rewrite zlen_app. pose proof (zlen_nonneg rest).
  rewrite if_true by lia. f_equal. replace (offset segs i + zlen (encode (nth i segs [])) - offset segs i) with (zlen (encode (nth i segs []))) by lia.
  assert (E : encode (concat segs) = encode (concat (firstn i segs)) ++ encode (nth i segs []) ++ encode (concat (skipn (S i) segs))).
  { rewrite <- !encode_app. f_equal. rewrite <- (firstn_skipn (S i) segs) at 1. rewrite (GraphemeProofs.firstn_S segs i [] H).
    rewrite !concat_app. cbn [concat]. rewrite app_nil_r, <- app_assoc. reflexivity. }
  rewrite E, <- app_assoc. unfold offset. rewrite skipn_zlen. rewrite <- app_assoc. unfold zlen. rewrite Nat2Z.id.
  rewrite firstn_app, firstn_all, Nat.sub_diag, firstn_O. apply app_nil_r.
Qed.

Lemma built_cluster rs rest i : let s := encode rs ++ rest in rs <> [] -> zlen s < 65535 ->
  Forall (fun g => zlen g <= 4096) (clusters rs) -> (i < length (clusters rs))%nat ->
  Nth (built s rs) (Z.of_nat i) = Ok (encode (nth i (clusters rs) [])).
Proof.
  intros s Hr L C Hi. subst s. rewrite built_nth by assumption. rewrite cut_small by exact C.
  rewrite <- (clusters_concat rs) at 1. rewrite slice_cluster by exact Hi. reflexivity.
Qed.
End Table.
