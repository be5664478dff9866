(* TextScan.v -- from the bytes of the text to the runes that the bidi scanner reads.
   Models bufio.ScanRunes (as documented in Go's package bufio), which bidi/scanner.go:47-48 sets as
   split function: every ill-formed byte is delivered as the three bytes of U+FFFD, while the input
   advances by one byte. *)
From Coq Require Import List ZArith Lia Bool.
From Verif Require Import Base Utf8 Utf8Proofs Scrap Scanner ScannerProofs.
Import ListNotations.
Open Scope Z_scope.

(* The runes with the lengths of the delivered tokens (scanner.go:100-101); [n] bounds their number. *)
Fixpoint scan_runes (n : nat) (s : list Z) : list (Z * Z) :=
  match n, s with
  | O, _ | _, [] => []
  | S n, _ =>
      let (r, w) := DecodeRune s in
      if w <=? 1 then (r, if r =? RuneError then 3 else 1) :: scan_runes n (tl s)
      else (r, w) :: scan_runes n (skipn (Z.to_nat w) s)
  end.
Definition ScanRunes (s : list Z) : list (Z * Z) := scan_runes (length s) s.

Lemma scan_runes_step n s : s <> [] -> scan_runes (S n) s =
  let (r, w) := DecodeRune s in
    if w <=? 1 then (r, if r =? RuneError then 3 else 1) :: scan_runes n (tl s)
    else (r, w) :: scan_runes n (skipn (Z.to_nat w) s).
Proof. destruct s; [congruence|reflexivity]. Qed.

Lemma scan_runes_encode : forall rs n, Forall (fun r => scalar r = true) rs -> (length (encode rs) <= n)%nat ->
  scan_runes n (encode rs) = map (fun r => (r, zlen (EncodeRune r))) rs.
Proof.
  induction rs as [|r rs IH]; intros n F L.
  { destruct n; reflexivity. }
  inversion F as [|? ? F1 F2]; subst. change (encode (r :: rs)) with (EncodeRune r ++ encode rs) in *.
  rewrite app_length in L. pose proof (encode_len r) as EL. unfold zlen in EL.
  destruct n as [|n]; [lia|]. cbn [map].
  rewrite scan_runes_step by (intros E; apply app_eq_nil in E; destruct E as [E _]; rewrite E in EL; cbn in EL; lia).
  rewrite decode_encode by auto.
  assert (SK : skipn (Z.to_nat (zlen (EncodeRune r))) (EncodeRune r ++ encode rs) = encode rs).
  { unfold zlen. rewrite Nat2Z.id, skipn_app, skipn_all, Nat.sub_diag. reflexivity. }
  destruct (Z.leb_spec (zlen (EncodeRune r)) 1) as [W|W].
  - assert (W1 : zlen (EncodeRune r) = 1) by (unfold zlen in *; lia).
    assert (NR : (r =? RuneError) = false).
    { apply Z.eqb_neq. intros ->. revert W1. vm_compute. discriminate. }
    rewrite NR, W1. rewrite W1 in SK. change (Z.to_nat 1) with 1%nat in SK.
    assert (TL : tl (EncodeRune r ++ encode rs) = encode rs) by (rewrite <- SK at 2; destruct (EncodeRune r ++ encode rs); reflexivity).
    rewrite TL. f_equal.
    apply IH; auto. unfold zlen in W1. lia.
  - rewrite SK. f_equal. apply IH; auto. lia.
Qed.

Lemma ScanRunes_encode rs : Forall (fun r => scalar r = true) rs ->
  ScanRunes (encode rs) = map (fun r => (r, zlen (EncodeRune r))) rs.
Proof. intros F. apply scan_runes_encode; auto. Qed.

Lemma encoded_ok rs : lens_ok (map (fun r => (r, zlen (EncodeRune r))) rs).
Proof. apply Forall_map, Forall_forall. intros r _. cbn. unfold zlen. lia. Qed.

Lemma encoded_total rs : total (map (fun r => (r, zlen (EncodeRune r))) rs) = zlen (encode rs).
Proof.
  induction rs as [|r rs IH]; [reflexivity|]. change (encode (r :: rs)) with (EncodeRune r ++ encode rs).
  cbn [map]. unfold total in *. cbn [fold_right snd]. rewrite IH. unfold zlen. rewrite app_length. lia.
Qed.

(* Without paragraph separators in it, the whole text is the paragraph. *)
Lemma encoded_para md props rs : Forall (fun r => m_ignore md = true \/ fst (props r) <> cB) rs ->
  para md props (map (fun r => (r, zlen (EncodeRune r))) rs) = map (fun r => (r, zlen (EncodeRune r))) rs.
Proof.
  induction 1 as [|r rs H _ IH]; [reflexivity|]. cbn [map para]. rewrite IH.
  destruct H as [-> | H]; [rewrite andb_false_r; reflexivity|].
  apply Z.eqb_neq in H. rewrite H. reflexivity.
Qed.
