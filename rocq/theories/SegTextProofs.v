(* SegTextProofs.v -- the bytes of the segments. *)
From Coq Require Import List ZArith Lia Bool.
From Verif Require Import Base Utf8 Utf8Proofs RuneWrite Segmenter SegInv BreakSpec BreakSpecProofs GStringProofs SegText.
Import ListNotations.
Open Scope Z_scope.

Lemma write_all_encode : forall rs buf, write_all buf rs = buf ++ encode rs.
Proof.
  induction rs as [|r t IH]; intros buf; cbn [write_all]; [symmetry; apply app_nil_r|]. rewrite IH, <- app_assoc. reflexivity.
Qed.

Lemma decode_pos s : s <> [] -> 1 <= snd (DecodeRune s) <= 4.
Proof.
  destruct s as [|b0 t]; [congruence|]. intros _. unfold DecodeRune.
  repeat match goal with
  | |- context [let (_, _) := second ?b in _] => destruct (second b)
  | |- context [match ?l with [] => _ | _ => _ end] => destruct l
  | |- context [if ?b then _ else _] => destruct b
  end; cbn [snd]; lia.
Qed.
Lemma bad_one s : s <> [] -> bad s -> snd (DecodeRune s) = 1.
Proof. intros N [_ B]. pose proof (decode_pos s N). lia. Qed.

Lemma read_repaired : forall n s, Forall byte s -> (length s <= n)%nat -> repaired s (encode (map fst (read_runes n s))).
Proof.
  induction n as [|n IH]; intros s B L; [destruct s; [constructor|cbn [length] in L; lia]|]. cbn [read_runes].
  destruct s as [|b t]; [constructor|]. pose proof (decode_pos (b :: t) ltac:(discriminate)) as P.
  destruct (decode_sound (b :: t) B) as [BD|(S1 & S2 & S3)].
  - pose proof (bad_one (b :: t) ltac:(discriminate) BD) as W. destruct BD as [F _]. destruct (DecodeRune (b :: t)) as [r w] eqn:E. cbn [fst snd] in F, W. subst r w.
    change (skipn (Z.to_nat 1) (b :: t)) with t. cbn [map fst]. change (encode (RuneError :: map fst (read_runes n t))) with ([239; 191; 189] ++ encode (map fst (read_runes n t))).
    apply rp_bad; [|apply IH; [exact (Forall_inv_tail B)|cbn [length] in L; lia]].
    intros r u SC X. apply (encode_not_bad r u SC). rewrite <- X. unfold bad. rewrite E. cbn [fst snd]. split; [reflexivity|lia].
  - destruct (DecodeRune (b :: t)) as [r w] eqn:E. cbn [fst snd] in *. rewrite S3 at 1. cbn [map fst].
    change (encode (r :: map fst (read_runes n (skipn (Z.to_nat w) (b :: t))))) with (EncodeRune r ++ encode (map fst (read_runes n (skipn (Z.to_nat w) (b :: t))))).
    apply rp_char; [exact S1|]. apply IH.
    + rewrite <- (firstn_skipn (Z.to_nat w) (b :: t)) in B. apply Forall_app in B. apply B.
    + rewrite skipn_length. cbn [length] in *. lia.
Qed.
Lemma read_sizes : forall n s, (length s <= n)%nat -> Forall (fun it => 1 <= snd it) (read_runes n s) /\ (length (read_runes n s) <= length s)%nat.
Proof.
  induction n as [|n IH]; intros s L; [destruct s; [split; [constructor|apply le_n]|cbn [length] in L; lia]|]. cbn [read_runes].
  destruct s as [|b t]; [split; [constructor|apply le_n]|]. pose proof (decode_pos (b :: t) ltac:(discriminate)) as P.
  destruct (DecodeRune (b :: t)) as [r w]. cbn [snd] in P.
  destruct (IH (skipn (Z.to_nat w) (b :: t))) as [H1 H2]; [rewrite skipn_length; cbn [length] in *; lia|].
  split; [constructor; [cbn [snd]; lia|exact H1]|]. rewrite skipn_length in H2. cbn [length] in *. lia.
Qed.
(* The sizes never exceed the text: a character is decoded only if all of it is there. *)
Lemma read_total : forall n s, Forall byte s -> (length s <= n)%nat -> sizes (read_runes n s) = zlen s.
Proof.
  induction n as [|n IH]; intros s B L; [destruct s; [reflexivity|cbn [length] in L; lia]|]. cbn [read_runes].
  destruct s as [|b t]; [reflexivity|]. pose proof (decode_pos (b :: t) ltac:(discriminate)) as P.
  assert (LE : snd (DecodeRune (b :: t)) <= zlen (b :: t)).
  { destruct (decode_sound (b :: t) B) as [BD|(_ & S2 & S3)].
    - rewrite (bad_one (b :: t) ltac:(discriminate) BD). unfold zlen. cbn [length]. lia.
    - rewrite S2. rewrite S3 at 2. unfold zlen. rewrite app_length. lia. }
  destruct (DecodeRune (b :: t)) as [r w]. cbn [fst snd] in *. unfold sizes in *. cbn [map snd fold_right]. rewrite IH.
  - unfold zlen in *. rewrite skipn_length. cbn [length] in *. lia.
  - rewrite <- (firstn_skipn (Z.to_nat w) (b :: t)) in B. apply Forall_app in B. apply B.
  - rewrite skipn_length. cbn [length] in *. lia.
Qed.
Lemma repaired_valid rs t : Forall (fun r => scalar r = true) rs -> repaired (encode rs) t -> t = encode rs.
Proof.
  revert t. induction rs as [|r rs IH]; intros t F X.
  - change (encode []) with (@nil Z) in *. inversion X as [|r s t' S R E|]; [reflexivity|]. destruct (encode_len r) as [L _]. apply app_eq_nil in E. destruct E as [E _]. rewrite E in L. vm_compute in L. congruence.
  - change (encode (r :: rs)) with (EncodeRune r ++ encode rs) in *. pose proof (Forall_inv F) as S1. cbn beta in S1.
    inversion X as [E|r' s t' S R E|b s t' NO R E].
    + destruct (encode_len r) as [L _]. symmetry in E. apply app_eq_nil in E. destruct E as [E _]. rewrite E in L. vm_compute in L. congruence.
    + pose proof (decode_encode r (encode rs) S1) as D1. pose proof (decode_encode r' s S) as D2. rewrite E, D1 in D2. injection D2 as <- _.
      apply app_inv_head in E. subst s. f_equal. apply IH; [exact (Forall_inv_tail F)|exact R].
    + exfalso. apply (NO r (encode rs) S1). exact E.
Qed.

Lemma encode_byte r : Forall byte (EncodeRune r).
Proof.
  unfold EncodeRune. assert (X : scalar (if scalar r then r else RuneError) = true) by (destruct (scalar r) eqn:E; [exact E|reflexivity]).
  revert X. generalize (if scalar r then r else RuneError). clear r. intros r X.
  assert (R : 0 <= r <= 1114111) by (unfold scalar, between in X; apply orb_true_iff in X; destruct X as [X|X]; apply andb_true_iff in X; destruct X as [X1 X2]; apply Z.leb_le in X1, X2; lia).
  pose proof (Z.mod_pos_bound r 64 ltac:(lia)). pose proof (Z.mod_pos_bound (r / 64) 64 ltac:(lia)). pose proof (Z.mod_pos_bound (r / 4096) 64 ltac:(lia)).
  unfold byte. repeat match goal with |- context [?a <? ?b] => destruct (Z.ltb_spec a b) end; repeat constructor; try lia.
Qed.
Lemma encode_bytes rs : Forall byte (encode rs).
Proof. induction rs as [|r t IH]; [constructor|]. change (encode (r :: t)) with (EncodeRune r ++ encode t). apply Forall_app. split; [apply encode_byte|exact IH]. Qed.
Lemma read_encode : forall rs n, Forall (fun r => scalar r = true) rs -> (length (encode rs) <= n)%nat -> map fst (read_runes n (encode rs)) = rs.
Proof.
  induction rs as [|r t IH]; intros n F L; [destruct n; reflexivity|]. change (encode (r :: t)) with (EncodeRune r ++ encode t) in *.
  pose proof (decode_encode r (encode t) (Forall_inv F)) as D. pose proof (proj1 (encode_len r)) as EL. rewrite app_length in L.
  assert (PL : (1 <= length (EncodeRune r))%nat) by (unfold zlen in EL; lia).
  destruct n as [|n]; [lia|]. cbn [read_runes]. destruct (EncodeRune r ++ encode t) as [|b u] eqn:E.
  { apply app_eq_nil in E. destruct E as [E _]. rewrite E in PL. cbn in PL. lia. }
  rewrite D. cbn [map fst]. rewrite <- E. unfold zlen. rewrite Nat2Z.id, skipn_app, skipn_all, Nat.sub_diag. cbn [app skipn].
  f_equal. apply IH; [exact (Forall_inv_tail F)|lia].
Qed.

Lemma encode_nonempty r s : EncodeRune r ++ s <> [].
Proof. intros E. pose proof (proj1 (encode_len r)) as L. apply app_eq_nil in E. destruct E as [E _]. rewrite E in L. vm_compute in L. congruence. Qed.
Lemma repaired_fun s t u : repaired s t -> repaired s u -> t = u.
Proof.
  intros A. revert u. induction A as [|r s t S1 R IH|b s t NO R IH]; intros u X.
  - inversion X as [E|r s t S2 R2 E|]; [reflexivity|]. exfalso. exact (encode_nonempty _ _ E).
  - inversion X as [E|r' s' t' S2 R2 E|b s' t' NO R2 E].
    + exfalso. exact (encode_nonempty _ _ (eq_sym E)).
    + pose proof (decode_encode r s S1) as D1. pose proof (decode_encode r' s' S2) as D2. rewrite E, D1 in D2. injection D2 as <- _.
      apply app_inv_head in E. subst s'. f_equal. apply IH, R2.
    + exfalso. apply (NO r s S1). exact E.
  - inversion X as [|r' s' t' S2 R2 E|b' s' t' NO2 R2 E].
    + exfalso. apply (NO r' s' S2). symmetry. exact E.
    + f_equal. apply IH. assumption.
Qed.
Lemma repaired_longer s t : repaired s t -> (length s <= length t)%nat.
Proof. induction 1; rewrite ?app_length; cbn [length]; rewrite ?app_length; lia. Qed.
Lemma repaired_same s : repaired s s <-> exists rs, Forall (fun r => scalar r = true) rs /\ s = encode rs.
Proof.
  split.
  - assert (G : forall t, repaired s t -> (length t <= length s)%nat -> exists rs, Forall (fun r => scalar r = true) rs /\ s = encode rs).
    { intros t R. induction R as [|r s t S1 R IH|b s t NO R IH]; intros L.
      - exists []. split; [constructor|reflexivity].
      - rewrite !app_length in L. destruct IH as (rs & F & E); [lia|]. exists (r :: rs). split; [now constructor|]. rewrite E. reflexivity.
      - exfalso. pose proof (repaired_longer _ _ R). rewrite app_length in L. cbn [length] in L. lia. }
    intros R. apply (G s R), le_n.
  - intros (rs & F & ->). induction F as [|r l S1 _ IH]; [constructor|]. change (encode (r :: l)) with (EncodeRune r ++ encode l). now apply rp_char.
Qed.

(* ---- what a segmenter delivers from a reader ---- *)
Lemma bytes_text {Q B : Type} (s : state Q B) : Bytes s = TextString s.
Proof. unfold Bytes, TextString. destruct (lift (Runes (rbuf s))) as [rs| |]; [|reflexivity|reflexivity]. cbn [rbind]. now rewrite write_all_encode. Qed.
Section Loop.
Context {Q B : Type} (O : qops Q) (step : B -> Z -> B * Z * list Z).
Lemma byte_loop_loop : forall n s outs f s', loop O step n s = Ok (outs, f, s') ->
  byte_loop O step n s = Ok (map (fun o => encode (fst o)) outs, f, s').
Proof.
  induction n as [|n IH]; intros s outs f s' H; cbn [loop byte_loop] in *; [injection H as <- <- <-; reflexivity|].
  unfold exec, bound_of in H. unfold Next. destruct (next O step MaxInt s) as [[b s1]| |]; [|discriminate|discriminate]. cbn [rbind] in *.
  destruct b; cbn [rbind] in *; [|injection H as <- <- <-; reflexivity].
  rewrite bytes_text. unfold TextString, Text in *. destruct (lift (Runes (rbuf s1))) as [rs| |]; [|discriminate|discriminate]. cbn [rbind] in *.
  destruct (loop O step n s1) as [[[xs f'] s2]| |] eqn:E; [|discriminate|discriminate]. cbn [rbind] in H. injection H as <- <- <-.
  rewrite (IH _ _ _ _ E). reflexivity.
Qed.
End Loop.

Section Delivered.
Context {B : Type} (step : B -> Z -> B * Z * list Z) (b0 : B) (n : nat).
Definition shown (s : list Z) (out : list (list Z)) : Prop :=
  exists s1 s', Init deque_ops (mkrd (ReadRunes s) EOF) (NewSegmenter [b0]) = Ok s1 /\
    byte_loop deque_ops step n s1 = Ok (out, true, s') /\ Err s' = None.
Lemma shown_bytes s segs : Forall byte s -> concat segs = map fst (ReadRunes s) ->
  (exists s1 outs s', Init deque_ops (mkrd (ReadRunes s) EOF) (NewSegmenter [b0]) = Ok s1 /\
    loop deque_ops step n s1 = Ok (outs, true, s') /\ map fst outs = map (firstn (Z.to_nat 4096)) segs /\ Err s' = None) ->
  shown s (map (fun w => encode (firstn (Z.to_nat 4096) w)) segs) /\
  repaired s (concat (map encode segs)) /\
  (Forall (fun w => zlen w <= 4096) segs -> shown s (map encode segs)).
Proof.
  intros BY C (s1 & outs & s' & E1 & E2 & E3 & E4).
  assert (SH : shown s (map (fun w => encode (firstn (Z.to_nat 4096) w)) segs)).
  { exists s1, s'. split; [exact E1|]. split; [|exact E4]. rewrite (byte_loop_loop _ _ _ _ _ _ _ E2).
    rewrite <- (map_map fst encode outs), E3, map_map. reflexivity. }
  split; [exact SH|]. split.
  - rewrite <- encode_concat, C. apply read_repaired; [exact BY|apply le_n].
  - intros F. replace (map encode segs) with (map (fun w => encode (firstn (Z.to_nat 4096) w)) segs); [exact SH|].
    apply map_ext_in. intros w IN. rewrite Forall_forall in F. specialize (F w IN). cbn beta in F. rewrite firstn_all2; [reflexivity|]. unfold zlen in F. lia.
Qed.
End Delivered.
