(* GStringExact.v -- the graphemes of every string that begins with a legal rune, and when they make up the string. *)
From Coq Require Import List ZArith Lia Bool Arith.
From Verif Require Import Base RuneWrite Segmenter Utf8 Utf8Proofs Grapheme GraphemeSpec BreakSpec BreakSpecProofs GraphemeProofs GraphemeCor GString GStringProofs.
Import ListNotations.
Open Scope Z_scope.

(* the bytes the segmenter shows of a cluster: those of its first 4096 runes *)
Definition shown (g : list Z) : Z := zlen (encode (firstn (Z.to_nat 4096) g)).
Fixpoint total (xs : list Z) : Z := match xs with [] => 0 | x :: t => x + total t end.
(* piece number i of a text, if the pieces have these lengths and follow each other *)
Definition piece (s : list Z) (lens : list Z) (i : nat) : list Z := firstn (Z.to_nat (nth i lens 0)) (skipn (Z.to_nat (total (firstn i lens))) s).

Lemma total_app a b : total (a ++ b) = total a + total b.
Proof. induction a as [|x a IH]; cbn [app total]; lia. Qed.
Lemma shown_le g : 0 <= shown g <= zlen (encode g).
Proof.
  unfold shown. pose proof (zlen_nonneg (encode (skipn (Z.to_nat 4096) g))). assert (H0 : zlen (encode g) = zlen (encode (firstn (Z.to_nat 4096) g)) + zlen (encode (skipn (Z.to_nat 4096) g))).
  { rewrite <- zlen_app, <- encode_app, firstn_skipn. reflexivity. }
  pose proof (zlen_nonneg (encode (firstn (Z.to_nat 4096) g))). lia.
Qed.
Lemma shown_all g : shown g = zlen (encode g) <-> zlen g <= 4096.
Proof.
  unfold shown. assert (H0 : zlen (encode g) = zlen (encode (firstn (Z.to_nat 4096) g)) + zlen (encode (skipn (Z.to_nat 4096) g))).
  { rewrite <- zlen_app, <- encode_app, firstn_skipn. reflexivity. }
  pose proof (encode_ge (skipn (Z.to_nat 4096) g)) as G. rewrite skipn_length in G. split; intros H; [unfold zlen in *; lia|].
  rewrite firstn_all2; [reflexivity|unfold zlen in *; lia].
Qed.
Lemma total_shown l : total (map shown l) <= zlen (encode (concat l)).
Proof. induction l as [|g l IH]; [cbn; lia|]. cbn [map total concat]. rewrite encode_app, zlen_app. pose proof (shown_le g). lia. Qed.
Lemma total_shown_eq l : total (map shown l) = zlen (encode (concat l)) <-> Forall (fun g => zlen g <= 4096) l.
Proof.
  induction l as [|g l IH]; [split; [constructor|reflexivity]|]. cbn [map total concat]. rewrite encode_app, zlen_app. pose proof (shown_le g). pose proof (total_shown l). split.
  - intros E. constructor; [apply shown_all; lia|apply IH; lia].
  - intros F. inversion F as [|x y A B]; subst. apply shown_all in A. apply IH in B. lia.
Qed.
Lemma offset_total l i : offset (map (firstn (Z.to_nat 4096)) l) i = total (firstn i (map shown l)).
Proof.
  revert i. induction l as [|g l IH]; intros [|i]; unfold offset in *; cbn [map]; rewrite ?firstn_nil, ?firstn_O; try reflexivity.
  rewrite !firstn_cons. cbn [concat total]. rewrite encode_app, zlen_app, IH. reflexivity.
Qed.
Lemma total_S lens i : total (firstn (S i) lens) = total (firstn i lens) + nth i lens 0.
Proof.
  revert i. induction lens as [|x lens IH]; intros i; [now rewrite !firstn_nil; destruct i|]. destruct i as [|i]; [rewrite firstn_cons, !firstn_O; cbn; lia|].
  rewrite !firstn_cons. cbn [total nth].  specialize (IH i). lia.
Qed.
Lemma total_prefix lens i : Forall (fun x => 0 <= x) lens -> 0 <= total (firstn i lens) <= total lens.
Proof.
  intros F. revert i. induction F as [|x lens X F IH]; intros i; [rewrite firstn_nil; cbn; lia|]. destruct i as [|i]; [rewrite firstn_O; cbn [total]; specialize (IH (length lens)); rewrite firstn_all in IH; lia|].
  rewrite firstn_cons. cbn [total]. specialize (IH i). lia.
Qed.
Lemma shown_nonneg l : Forall (fun x => 0 <= x) (map shown l).
Proof. apply Forall_forall. intros x I. apply in_map_iff in I. destruct I as (g & <- & _). apply shown_le. Qed.
(* pieces that follow each other are the beginning of the text *)
Lemma firstn_add {A} a b (s : list A) : firstn (a + b) s = firstn a s ++ firstn b (skipn a s).
Proof. revert s. induction a as [|a IH]; intros [|x s]; cbn [Nat.add firstn skipn app]; rewrite ?firstn_nil; try reflexivity. now rewrite IH. Qed.
Lemma nth_firstn {A} k (l : list A) j d : (j < k)%nat -> nth j (firstn k l) d = nth j l d.
Proof. revert l j. induction k as [|k IH]; intros l j H; [lia|]. destruct l as [|x l]; [reflexivity|]. rewrite firstn_cons. destruct j; [reflexivity|]. cbn [nth]. apply IH. lia. Qed.
Lemma pieces_concat s lens : Forall (fun x => 0 <= x) lens -> forall k, (k <= length lens)%nat ->
  concat (map (piece s lens) (seq 0 k)) = firstn (Z.to_nat (total (firstn k lens))) s.
Proof.
  intros F. induction k as [|k IH]; intros L; [reflexivity|]. rewrite seq_S, map_app, concat_app, IH by lia. cbn [map concat Nat.add]. rewrite app_nil_r. unfold piece.
  pose proof (total_prefix lens k F). pose proof (total_S lens k). assert (0 <= nth k lens 0) by (rewrite Forall_forall in F; apply F, nth_In; lia).
  replace (Z.to_nat (total (firstn (S k) lens))) with (Z.to_nat (total (firstn k lens)) + Z.to_nat (nth k lens 0%Z))%nat by lia. now rewrite firstn_add.
Qed.

Section Table.
Context (table : Z -> Z -> bool) (pict : Z -> bool).
Let clusters (rs : list Z) : list (list Z) := segmentation (gb_break false (CodePointClassFor table pict)) rs.

Lemma nth_piece rs rest i : let s := encode rs ++ rest in rs <> [] -> zlen s < 65535 -> (i < length (clusters rs))%nat ->
  Nth (built table pict s rs) (Z.of_nat i) = Ok (piece s (map shown (clusters rs)) i).
Proof.
  intros s Hr L Hi. unfold s. rewrite (built_nth table pict rs rest i Hr L Hi). fold (clusters rs). rewrite !offset_total, total_S. unfold zslice, piece.
  pose proof (total_prefix _ i (shown_nonneg (clusters rs))) as T. pose proof (total_prefix _ (S i) (shown_nonneg (clusters rs))) as T1. rewrite total_S in T1.
  assert (N0 : 0 <= nth i (map shown (clusters rs)) 0) by (pose proof (shown_nonneg (clusters rs)) as F; rewrite Forall_forall in F; apply F, nth_In; rewrite map_length; lia).
  pose proof (total_shown (clusters rs)) as TS. unfold clusters in TS at 2. rewrite segmentation_concat in TS.
  assert (zlen (encode rs) <= zlen (encode rs ++ rest)) by (rewrite zlen_app; pose proof (zlen_nonneg rest); lia). rewrite if_true by lia. cbn [lift]. do 3 f_equal. lia.
Qed.
Lemma piece_len s lens i : Forall (fun x => 0 <= x) lens -> total lens <= zlen s -> (i < length lens)%nat -> zlen (piece s lens i) = nth i lens 0.
Proof.
  intros F T L. unfold piece, zlen in *. rewrite firstn_length, skipn_length. pose proof (total_prefix lens i F). pose proof (total_prefix lens (S i) F) as H1. rewrite total_S in H1.
  assert (0 <= nth i lens 0) by (rewrite Forall_forall in F; apply F, nth_In; lia). lia.
Qed.
(* all graphemes up to number i are right exactly if their clusters are not too long *)
Lemma right_upto rs rest i : let s := encode rs ++ rest in rs <> [] -> zlen s < 65535 -> (i < length (clusters rs))%nat ->
  (forall j, (j <= i)%nat -> Nth (built table pict s rs) (Z.of_nat j) = Ok (encode (nth j (clusters rs) []))) <-> Forall (fun g => zlen g <= 4096) (firstn (S i) (clusters rs)).
Proof.
  intros s Hr L Hi. set (lens := map shown (clusters rs)). assert (TL : total lens <= zlen s).
  { pose proof (total_shown (clusters rs)) as TS. unfold clusters in TS at 2. rewrite segmentation_concat in TS. unfold s. rewrite zlen_app. pose proof (zlen_nonneg rest). unfold lens. lia. }
  split.
  - intros H. apply Forall_forall. intros g I. apply In_nth with (d := []) in I. destruct I as (j & J & <-). rewrite firstn_length in J. rewrite nth_firstn by lia. specialize (H j ltac:(lia)). unfold s in H. rewrite nth_piece in H by (auto; lia).
    injection H as H. apply (f_equal zlen) in H. fold s lens in H. rewrite piece_len in H; [|apply shown_nonneg|exact TL|unfold lens; rewrite map_length; lia].
    apply shown_all. rewrite <- H. unfold lens. change 0 with (shown []). symmetry. apply map_nth.
  - intros F j J. unfold s. rewrite nth_piece by (auto; lia). f_equal. fold s lens.
    assert (E : total (firstn j lens) = zlen (encode (concat (firstn j (clusters rs))))).
    { unfold lens. rewrite firstn_map. apply total_shown_eq. rewrite <- (firstn_skipn j (firstn (S i) (clusters rs))) in F. apply Forall_app in F. destruct F as [F _]. rewrite firstn_firstn in F. now replace (Nat.min j (S i)) with j in F by lia. }
    assert (EN : nth j lens 0 = zlen (encode (nth j (clusters rs) []))).
    { unfold lens. change 0 with (shown []). rewrite map_nth. apply shown_all. rewrite Forall_forall in F. apply F. rewrite <- (nth_firstn (S i) _ j) by lia. apply nth_In. rewrite firstn_length. lia. }
    unfold piece. rewrite E, EN. unfold s.
    assert (ER : encode rs = encode (concat (firstn j (clusters rs))) ++ encode (nth j (clusters rs) []) ++ encode (concat (skipn (S j) (clusters rs)))).
    { rewrite <- !encode_app. f_equal. rewrite <- (segmentation_concat (gb_break false (CodePointClassFor table pict)) rs) at 1. fold (clusters rs). rewrite <- (firstn_skipn (S j) (clusters rs)) at 1.
      rewrite (GraphemeProofs.firstn_S (clusters rs) j [] ltac:(lia)). rewrite !concat_app. cbn [concat]. rewrite app_nil_r, <- app_assoc. reflexivity. }
    rewrite ER, <- app_assoc, skipn_zlen, <- app_assoc. unfold zlen. rewrite Nat2Z.id, firstn_app, firstn_all, Nat.sub_diag, firstn_O. apply app_nil_r.
Qed.
(* the graphemes make up the string exactly if nothing illegal is in it and no cluster is too long *)
Lemma whole_iff rs rest : let s := encode rs ++ rest in rs <> [] -> zlen s < 65535 ->
  (forall ps, Forall2 (fun i p => Nth (built table pict s rs) (Z.of_nat i) = Ok p) (seq 0 (length (clusters rs))) ps -> concat ps = s) <->
  rest = [] /\ Forall (fun g => zlen g <= 4096) (clusters rs).
Proof.
  intros s Hr L. set (lens := map shown (clusters rs)). assert (LL : length lens = length (clusters rs)) by (unfold lens; apply map_length).
  assert (PS : forall ps, Forall2 (fun i p => Nth (built table pict s rs) (Z.of_nat i) = Ok p) (seq 0 (length (clusters rs))) ps <-> ps = map (piece s lens) (seq 0 (length (clusters rs)))).
  { assert (G : forall k a ps, (a + k <= length (clusters rs))%nat -> Forall2 (fun i p => Nth (built table pict s rs) (Z.of_nat i) = Ok p) (seq a k) ps <-> ps = map (piece s lens) (seq a k)).
    { induction k as [|k IH]; intros a ps LE; cbn [seq map]; [split; [now inversion 1|intros ->; constructor]|]. split.
      - intros F. inversion F as [|x y u v A B]; subst. unfold s in A. rewrite nth_piece in A by (auto; lia). injection A as <-. f_equal. apply IH; [lia|exact B].
      - intros ->. constructor; [unfold s; rewrite nth_piece by (auto; lia); reflexivity|]. apply IH; [lia|reflexivity]. }
    intros ps. apply G. lia. }
  assert (C : concat (map (piece s lens) (seq 0 (length (clusters rs)))) = firstn (Z.to_nat (total lens)) s).
  { rewrite (pieces_concat s lens (shown_nonneg _)) by lia. rewrite <- LL, firstn_all. reflexivity. }
  pose proof (total_shown (clusters rs)) as TS. fold lens in TS. unfold clusters in TS at 1. rewrite segmentation_concat in TS.
  assert (SL : zlen s = zlen (encode rs) + zlen rest) by (unfold s; apply zlen_app). pose proof (zlen_nonneg rest) as R0. split.
  - intros H. specialize (H _ (proj2 (PS _) eq_refl)). rewrite C in H. apply (f_equal zlen) in H. assert (T0 : 0 <= total lens) by (pose proof (total_prefix lens (length lens) (shown_nonneg _)) as T; rewrite firstn_all in T; lia).
    assert (zlen s <= total lens) by (rewrite <- H at 1; unfold zlen at 1; rewrite firstn_length; lia).
    split; [destruct rest; [reflexivity|rewrite zlen_cons in SL; pose proof (zlen_nonneg rest); lia]|]. apply total_shown_eq. unfold clusters. rewrite segmentation_concat. fold (clusters rs) lens. lia.
  - intros (-> & F) ps P. apply PS in P. subst ps. rewrite C. apply firstn_all2. apply total_shown_eq in F. fold lens in F. unfold clusters in F. rewrite segmentation_concat in F. rewrite zlen_nil in SL. unfold zlen in *. lia.
Qed.
End Table.
