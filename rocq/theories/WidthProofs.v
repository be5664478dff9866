(* WidthProofs.v -- display widths. *)
From Coq Require Import List ZArith Lia Bool.
From Verif Require Import Base RuneWrite Segmenter Utf8 Utf8Proofs Grapheme GraphemeSpec BreakSpec BreakSpecProofs GraphemeProofs GString GStringProofs Width.
Import ListNotations.
Open Scope Z_scope.

Definition zsum (l : list Z) : Z := fold_right Z.add 0 l.
Lemma zsum_app a b : zsum (a ++ b) = zsum a + zsum b.
Proof. unfold zsum. induction a as [|x a IH]; [reflexivity|]. cbn [app fold_right]. lia. Qed.

Section Oracles.
Context (Zzzz : Z) (script_of : Z -> Z) (asian_script : Z -> bool) (matches : Z -> bool).
Context (emoji : Z -> bool) (kind_of : Z -> kind) (Latn en_US : Z).
Notation prepare := (prepare Zzzz script_of asian_script matches Latn en_US).
Notation graphemeWidth := (graphemeWidth emoji kind_of).
Notation Width := (Width Zzzz script_of asian_script matches emoji kind_of Latn en_US).
Notation StringWidth := (StringWidth Zzzz script_of asian_script matches emoji kind_of Latn en_US).

Lemma prepared c : exists f, resolve (fst (prepare c)) = Some f.
Proof.
  destruct c as [ctx|]; [|cbn; eauto]. unfold Width.prepare. destruct (resolve ctx) as [f|] eqn:R; [cbn; eauto|]. cbn [fst].
  unfold evaluateContext. destruct (ForceEastAsian ctx); cbn; eauto.
Qed.
Lemma prepare_again c : fst (prepare (snd (prepare c))) = fst (prepare c) /\ snd (prepare (snd (prepare c))) = snd (prepare c).
Proof.
  destruct (prepared c) as [f F]. destruct c as [ctx|]; [|auto]. unfold Width.prepare in *. destruct (resolve ctx) as [g|] eqn:R.
  - cbn [snd fst]. rewrite R. auto.
  - cbn [snd fst] in *. rewrite F. auto.
Qed.

(* the width of a cluster in a given context, as a number *)
Definition gw (ctx : context) (g : list Z) : Z := match graphemeWidth g ctx with Ok w => w | _ => 0 end.
Lemma gw_ok ctx g : (exists f, resolve ctx = Some f) -> graphemeWidth g ctx = Ok (gw ctx g) /\ (gw ctx g = 1 \/ gw ctx g = 2).
Proof.
  intros [f F]. unfold gw, Width.graphemeWidth. destruct (DecodeRune g) as [r w]. destruct (emoji r); [auto|]. rewrite F. cbn [lift rbind].
  destruct (apply_resolver f (kind_of r)); auto.
Qed.

Lemma width_range n g c w c' : Width n g c = Ok (w, c') -> w = 0 \/ w = 1 \/ w = 2.
Proof.
  unfold Width.Width. destruct (zlen g =? 0); [intros [= <- <-]; auto|].
  destruct (PositionOfFirstLegalRune n g) as [[st pre]| |]; cbn [rbind]; try discriminate.
  destruct (negb (st =? 0)); [intros [= <- <-]; auto|]. destruct (prepare c) as [ctx c1] eqn:E.
  pose proof (prepared c) as P. rewrite E in P. cbn [fst] in P. destruct (gw_ok ctx g P) as [-> H]. cbn [rbind]. intros [= <- <-]. auto.
Qed.
(* which of the three *)
Lemma width_value n g c : Width (S n) g c =
  match g with
  | [] => Ok (0, c)
  | b :: _ => if RuneStart b then
                if fst (DecodeRune g) =? RuneError then Ok (0, c) else Ok (gw (fst (prepare c)) g, snd (prepare c))
              else NoFuel
  end.
Proof.
  unfold Width.Width. destruct g as [|b t]; [reflexivity|].
  destruct (Z.eqb_spec (zlen (b :: t)) 0) as [E|_]; [rewrite zlen_cons in E; pose proof (zlen_nonneg t); lia|].
  destruct (RuneStart b) eqn:R.
  2:{ rewrite position_diverges by exact R. reflexivity. }
  rewrite position_cases, R. destruct (_ =? RuneError); [reflexivity|]. cbn [rbind Z.eqb negb].
  pose proof (prepared c) as P. destruct (prepare c) as [ctx c1]. cbn [fst snd] in *. destruct (gw_ok ctx (b :: t) P) as [-> _]. reflexivity.
Qed.

Lemma loop_sum ctx (P : exists f, resolve ctx = Some f) s : forall ws i w,
  (forall k, (k < length ws)%nat -> Nth s (i + Z.of_nat k) = Ok (nth k ws [])) ->
  width_loop emoji kind_of (length ws) s i ctx w = Ok (w + zsum (map (gw ctx) ws)).
Proof.
  induction ws as [|g t IH]; intros i w H; cbn [length width_loop map].
  - cbn. f_equal. lia.
  - pose proof (H 0%nat ltac:(cbn; lia)) as H0. rewrite Z.add_0_r in H0. rewrite H0. cbn [rbind nth].
    destruct (gw_ok ctx g P) as [-> _]. cbn [rbind]. rewrite IH.
    + unfold zsum. cbn [fold_right]. f_equal. lia.
    + intros k Hk. specialize (H (S k) ltac:(cbn; lia)). cbn [nth] in H. rewrite <- H. f_equal. lia.
Qed.

Section Table.
Context (table : Z -> Z -> bool) (pict : Z -> bool).
Let cls := CodePointClassFor table pict.
Let clusters (rs : list Z) : list (list Z) := segmentation (gb_break false cls) rs.

Lemma string_width rs rest c : let s := encode rs ++ rest in rs <> [] -> zlen s < 65535 -> Forall (fun g => zlen g <= 4096) (clusters rs) ->
  StringWidth (built table pict s rs) c = Ok (zsum (map (fun g => gw (fst (prepare c)) (encode g)) (clusters rs)), snd (prepare c)).
Proof.
  intros s Hr L C. unfold Width.StringWidth. rewrite built_len by exact Hr. fold cls. fold (clusters rs).
  assert (N : clusters rs <> []) by (apply clusters_ne; exact Hr).
  destruct (Z.eqb_spec (zlen (clusters rs)) 0) as [E|_]; [destruct (clusters rs); [contradiction|rewrite zlen_cons in E; pose proof (zlen_nonneg l0); lia]|].
  pose proof (prepared c) as P. destruct (prepare c) as [ctx c1]. cbn [fst snd] in *.
  unfold zlen. rewrite Nat2Z.id. rewrite <- (map_length encode (clusters rs)).
  rewrite (loop_sum ctx P).
  - cbn [rbind]. rewrite map_map. reflexivity.
  - intros k Hk. rewrite map_length in Hk. change (0 + Z.of_nat k) with (Z.of_nat k). subst s. rewrite built_cluster by auto.
    change (@nil Z) with (encode []) at 2. rewrite map_nth. reflexivity.
Qed.

(* Width agrees on the clusters *)
Lemma cluster_width n rs c g : Forall proper rs -> In g (clusters rs) -> Width (S n) (encode g) c = Ok (gw (fst (prepare c)) (encode g), snd (prepare c)).
Proof.
  intros P I.
  assert (Ne : g <> []) by (apply (proj1 (Forall_forall _ _) (split_nonempty (gb_break false cls) rs [] []) g I)).
  assert (Pg : Forall proper g).
  { rewrite <- (clusters_concat table pict rs) in P. fold cls in P. apply Forall_forall. intros x Hx. apply (proj1 (Forall_forall _ _) P).
    apply in_concat. exists g. auto. }
  destruct g as [|r t]; [contradiction|]. inversion Pg as [|? ? [Sc N] _]; subst.
  rewrite encode_cons. rewrite width_value. pose proof (decode_encode r (encode t) Sc) as D.
  destruct (EncodeRune r ++ encode t) as [|b u] eqn:E; [cbn in D; congruence|].
  rewrite (decode_start b u) by (rewrite D; exact N). rewrite D. cbn [fst]. destruct (Z.eqb_spec r RuneError); [contradiction|]. reflexivity.
Qed.
End Table.
End Oracles.
