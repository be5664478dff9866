(* ResolverNested.v -- the bidi parser on texts with isolates: it terminates, what it leaves tiles the
   text, and every isolate becomes a child that tiles its part of the text. *)
From Coq Require Import List ZArith Lia Bool Wf_nat.
From Verif Require Import Base Scrap Brackets Trie Rules RuleProofs Reorder ReorderSpec ReorderProofs SplitProofs Scanner ScannerProofs Resolver ResolverProofs ResolverFlat.
Import ListNotations.
Open Scope Z_scope.

(* ---- isolates ---- *)
Definition isinit (s : scrap) : bool := isisolate s && negb (clz s =? cPDI).

(* Every initiator has its PDI. *)
Inductive bal : list scrap -> Prop :=
| bal_nil : bal []
| bal_plain s t : isisolate s = false -> bal t -> bal (s :: t)
| bal_iso i b p t : isinit i = true -> bal b -> clz p = cPDI -> bal t -> bal (i :: b ++ p :: t).

Lemma init_iso s : isinit s = true -> isisolate s = true /\ clz s <> cPDI.
Proof. unfold isinit. intros H. apply andb_true_iff in H. destruct H as [A B]. split; auto. apply negb_true_iff, Z.eqb_neq in B. exact B. Qed.
Lemma pdi_iso s : clz s = cPDI -> isisolate s = true /\ isinit s = false.
Proof. unfold isinit, isisolate. intros ->. auto. Qed.
Lemma noniso_init s : isisolate s = false -> isinit s = false.
Proof. unfold isinit. intros ->. reflexivity. Qed.

Lemma bal_inv s t : bal (s :: t) ->
  (isisolate s = false /\ bal t) \/
  (isinit s = true /\ exists b p v, t = b ++ p :: v /\ bal b /\ clz p = cPDI /\ bal v).
Proof. intros H. inversion H; subst; [auto|right]. eauto 10. Qed.

Lemma bal_pre a b : Forall (fun s => isisolate s = false) a -> bal b -> bal (a ++ b).
Proof. induction 1; cbn; auto using bal_plain. Qed.

(* What follows the scraps of an isolating run: nothing, or the closing PDI. *)
Definition ending (tail : list scrap) : Prop := tail = [] \/ exists pdi more, tail = pdi :: more /\ clz pdi = cPDI.

Lemma inside m : forall v body tail, m ++ v = body ++ tail -> bal body -> ending tail ->
  Forall (fun s => isisolate s = false) m -> exists body', body = m ++ body' /\ v = body' ++ tail /\ bal body'.
Proof.
  induction m as [|x m IH]; intros v body tail E B T F; [exists body; auto|].
  inversion F as [|? ? F1 F2]; subst. destruct body as [|y body].
  - cbn in E. subst tail. destruct T as [T|(pdi & more & T & TC)]; [discriminate|]. cbn [app] in T. injection T as T _. rewrite <- T in TC.
    apply pdi_iso in TC. destruct TC as [TC _]. congruence.
  - injection E as <- E. apply bal_inv in B. destruct B as [[_ B]|[B _]].
    + destruct (IH _ _ _ E B T F2) as (body' & -> & -> & X). exists body'. auto.
    + apply init_iso in B. destruct B as [B _]. congruence.
Qed.

(* ---- enough text behind the initiators ----
   An initiator with k initiators before it is followed by at least 3k+2 scraps. *)
Fixpoint room1 (k : nat) (l : list scrap) : Prop :=
  match l with
  | [] => True
  | s :: t => (isinit s = true -> (3 * k + 2 <= length t)%nat) /\ room1 (if isinit s then S k else k) t
  end.
(* Of the scraps that have been read ahead; [q] are still to come. *)
Fixpoint room2 (k q : nat) (l : list scrap) : Prop :=
  match l with
  | [] => True
  | s :: t => (isinit s = true -> (3 * k <= q)%nat) /\ room2 (if isinit s then S k else k) q t
  end.
Definition inits (l : list scrap) : nat := length (filter isinit l).

Lemma room1_le l : forall k j, (j <= k)%nat -> room1 k l -> room1 j l.
Proof.
  induction l as [|s t IH]; intros k j LE; cbn; [auto|]. intros [A B]. split; [intros X; specialize (A X); lia|].
  revert B. apply IH. destruct (isinit s); lia.
Qed.
Lemma room2_down l : forall k q, room2 (S k) q l -> room2 k (q - 3) l.
Proof.
  induction l as [|s t IH]; intros k q; cbn [room2]; [auto|]. intros [A B]. split; [intros X; specialize (A X); lia|].
  destruct (isinit s); auto.
Qed.
Lemma room2_short l : forall k q, (q < 3)%nat -> room2 (S k) q l -> inits l = 0%nat.
Proof.
  induction l as [|s t IH]; intros k q LE; cbn [room2]; [auto|]. intros [A B]. unfold inits. cbn [filter].
  destruct (isinit s); [specialize (A eq_refl); lia|]. exact (IH _ _ LE B).
Qed.
Lemma room1_short l : forall k, (length l < 3)%nat -> room1 k l -> inits l = 0%nat.
Proof.
  induction l as [|s t IH]; intros k LE; cbn [room1]; [auto|]. cbn [length] in LE. intros [A B]. unfold inits. cbn [filter].
  destruct (isinit s); [specialize (A eq_refl); lia|]. apply (IH k); auto. lia.
Qed.
Lemma inits_app a b : inits (a ++ b) = (inits a + inits b)%nat.
Proof. unfold inits. rewrite filter_app, app_length. reflexivity. Qed.
Lemma inits_cons s b : inits (s :: b) = ((if isinit s then 1 else 0) + inits b)%nat.
Proof. unfold inits. cbn [filter]. destruct (isinit s); reflexivity. Qed.
Lemma room1_app a : forall k b, room1 k (a ++ b) -> room1 (k + inits a) b.
Proof.
  induction a as [|s t IH]; intros k b; cbn [app room1]; [rewrite Nat.add_0_r; auto|]. intros [_ B].
  apply IH in B. rewrite inits_cons. destruct (isinit s); eapply room1_le; try exact B; lia.
Qed.
Lemma room2_app a : forall k q b, room2 k q (a ++ b) <-> room2 k q a /\ room2 (k + inits a) q b.
Proof.
  induction a as [|s t IH]; intros k q b; cbn [app room2]; [cbn; rewrite Nat.add_0_r; tauto|].
  rewrite IH, inits_cons. destruct (isinit s).
  - replace (S k + inits t)%nat with (k + (1 + inits t))%nat by lia. tauto.
  - cbn [Nat.add]. tauto.
Qed.
Lemma room1_plain a : forall k b, inits a = 0%nat -> room1 k b -> room1 k (a ++ b).
Proof.
  induction a as [|s t IH]; intros k b E; cbn [app room1]; [auto|]. rewrite inits_cons in E.
  destruct (isinit s); [lia|]. intros B. split; [discriminate|]. apply IH; auto.
Qed.
Lemma room2_plain a : forall k q, inits a = 0%nat -> room2 k q a.
Proof.
  induction a as [|s t IH]; intros k q E; cbn [app room2]; [auto|]. rewrite inits_cons in E.
  destruct (isinit s); [lia|]. split; [discriminate|]. apply IH; auto.
Qed.
Lemma room12 l : forall k q, (length l <= 3)%nat -> room1 k (l ++ q) -> room2 k (length q) l.
Proof.
  induction l as [|s t IH]; intros k q LE; cbn [app room1 room2]; [auto|]. cbn [length] in LE. intros [A B]. split.
  - intros X. specialize (A X). rewrite app_length in A. lia.
  - apply IH; auto. lia.
Qed.
Lemma noniso_inits a : Forall (fun s => isisolate s = false) a -> inits a = 0%nat.
Proof. induction 1 as [|s a H _ IH]; [reflexivity|]. rewrite inits_cons, IH, noniso_init; auto. Qed.

(* ---- trees ---- *)
Definition sane (s : scrap) : Prop := is_class (clz s) /\ isisolate s = false /\ weak (clz s) = false.
(* Children: isolates one behind the other, each from its initiator to its PDI, tiling its part of the text. *)
Inductive forest : Z -> list (list scrap) -> Z -> Prop :=
| forest_nil lo hi : lo <= hi -> forest lo [] hi
| forest_cons lo hi i body p ks :
    lo <= sl i -> isinit i = true -> kids i = [] -> clz p = cPDI -> kids p = [] ->
    tiles (sl i) (i :: body ++ [p]) (sr p) -> Forall sane body ->
    Forall (fun s => forest (sl s) (kids s) (sr s)) body -> forest (sr p) ks hi ->
    forest lo ((i :: body ++ [p]) :: ks) hi.

Lemma forest_le lo ks hi : forest lo ks hi -> lo <= hi.
Proof. induction 1; auto. apply tiles_le in H4. lia. Qed.
Lemma forest_wide lo ks hi : forest lo ks hi -> forall lo' hi', lo' <= lo -> hi <= hi' -> forest lo' ks hi'.
Proof.
  induction 1; intros lo' hi' A B; [constructor; lia|]. constructor; auto; [lia|]. apply IHforest; lia.
Qed.
Lemma forest_app lo a mid : forest lo a mid -> forall b hi, forest mid b hi -> forest lo (a ++ b) hi.
Proof.
  induction 1; intros b hi' F; cbn [app]; [apply (forest_wide _ _ _ F); lia|]. constructor; auto.
Qed.
Lemma forest_flat m : forall lo hi, tiles lo m hi -> Forall (fun s => forest (sl s) (kids s) (sr s)) m -> forest lo (flat_map kids m) hi.
Proof.
  induction m as [|s t IH]; intros lo hi T F; cbn in *; [constructor; lia|]. destruct T as (T1 & T2 & T3).
  inversion F as [|? ? F1 F2]; subst. apply (forest_app _ _ (sr s)); auto.
Qed.

(* The isolate characters, in order. *)
Fixpoint smarks (s : scrap) : list (Z * Z * Z) :=
  match s with
  | mks c l r _ ks =>
      (if (c =? cLRI) || (c =? cRLI) || (c =? cFSI) || (c =? cPDI) then [(c, l, r)] else []) ++
      flat_map (fun k => flat_map smarks k) ks
  end.
Definition marks (w : list scrap) : list (Z * Z * Z) := flat_map smarks w.
Lemma smarks_eq s : smarks s = (if isisolate s then [(clz s, sl s, sr s)] else []) ++ flat_map marks (kids s).
Proof. destruct s. reflexivity. Qed.
Lemma marks_app a b : marks (a ++ b) = marks a ++ marks b.
Proof. apply flat_map_app. Qed.
Lemma marks_cons s b : marks (s :: b) = smarks s ++ marks b.
Proof. reflexivity. Qed.
Lemma marks_merge c m : isisolate (merge c m) = false -> Forall (fun s => isisolate s = false) m -> smarks (merge c m) = marks m.
Proof.
  intros C F. rewrite smarks_eq, C. cbn [app]. unfold merge. cbn [kids].
  induction F as [|s m H _ IH]; [reflexivity|]. cbn [flat_map]. rewrite flat_map_app, marks_cons, smarks_eq, H, IH. reflexivity. 
  exact C.
Qed.

Lemma tiles_put m x : m <> [] -> sl x = sl (hd scrap0 m) -> sr x = sr (last m scrap0) ->
  forall a b lo hi, tiles lo (a ++ m ++ b) hi -> tiles lo (a ++ x :: b) hi.
Proof.
  intros NM E1 E2 a b lo hi T. apply (tiles_meld m NM a b 0) in T. apply tiles_app in T. destruct T as (k & T1 & T2).
  apply tiles_app. exists k. split; auto. unfold merge in T2. cbn [tiles sl sr] in *. rewrite E1, E2. exact T2.
Qed.

Section Nested.
Context (rtl : bool).
(* As an_ok of ResolverFlat.v; an isolate becomes a neutral. *)
Definition an_after (a b : scrap) : Prop := clz b = cAN -> ntr (clz a) = false /\ clz a <> cPDI.
Definition numbers1 (w : list scrap) : Prop := if rtl then linked an_after w else Forall only_l w.
Definition base (s : scrap) : Prop :=
  is_class (clz s) /\ forest (sl s) (kids s) (sr s) /\ (isisolate s = true -> kids s = []) /\ (edir (sctx s) = cL \/ edir (sctx s) = cR).
Definition basen1 (s : scrap) : Prop := base s /\ (clz s = cEN -> dcContext (sctx s) = cL).
(* The invariant of pass 1. *)
Definition N1 (lo hi : Z) (M : list (Z * Z * Z)) (w : list scrap) : Prop :=
  Forall basen1 w /\ linked et_ok w /\ tiles lo w hi /\ numbers1 w /\ marks w = M.

Lemma numbers1_tail a w : numbers1 (a ++ w) -> numbers1 w.
Proof.
  unfold numbers1. destruct rtl; [|intros H; apply Forall_app in H; tauto].
  induction a as [|s a IH]; [auto|]. intros H. apply IH. exact (linked_tail _ _ _ H).
Qed.
Lemma linked_suffix R a w : linked R (a ++ w) -> linked R w.
Proof. induction a as [|s a IH]; [auto|]. intros H. apply IH. exact (linked_tail _ _ _ H). Qed.

Lemma N1_tail lo hi M a i b : N1 lo hi M (a ++ i :: b) -> N1 (sr i) hi (marks b) b.
Proof.
  intros (A & B & C & D & E). replace (a ++ i :: b) with ((a ++ [i]) ++ b) in * by (rewrite <- app_assoc; reflexivity).
  split; [apply Forall_app in A; tauto|]. split; [apply (linked_suffix _ _ _ B)|]. split; [|split; [apply (numbers1_tail _ _ D)|reflexivity]].
  rewrite <- app_assoc in C. apply tiles_app in C. destruct C as (k & _ & C). cbn in C. tauto.
Qed.

Lemma lhs_noniso r m : In r stored -> map clz m = lhs r -> Forall (fun s => isisolate s = false) m.
Proof.
  intros I M. unfold isisolate. destruct r; cbn [lhs] in M; inv_map;
    repeat (constructor; [match goal with H : clz ?s = _ |- context [clz ?s] => rewrite H end; reflexivity|]); constructor.
Qed.

Lemma N1_rw lo hi M a m b r : N1 lo hi M (a ++ m ++ b) -> In r stored -> pass r = 1 -> map clz m = lhs r ->
  N1 lo hi M (a ++ merge (target1 r) m :: b) /\ isisolate (merge (target1 r) m) = false.
Proof.
  intros (F & L & T & N & MM) I P ML.
  assert (NM : m <> []) by (destruct m; [destruct r; discriminate ML|discriminate]).
  assert (NI : isisolate (merge (target1 r) m) = false) by (destruct r; try discriminate P; reflexivity).
  assert (FM : Forall basen1 m) by (apply Forall_app in F; destruct F as [_ F]; apply Forall_app in F; tauto).
  assert (TM : exists x y, tiles x m y).
  { apply tiles_app in T. destruct T as (x & _ & T). apply tiles_app in T. destruct T as (y & T & _). eauto. }
  split; [|exact NI]. split; [|split; [|split; [|split]]].
  - apply (forall_meld basen1 m); auto. intros _.
    assert (EC : target1 r = cEN -> dcContext (sctx (hd scrap0 m)) = cL).
    { destruct r; try discriminate P; cbn [lhs] in ML; try discriminate; intros _; inv_map; cbn [hd].
      1,2,4: inversion FM as [|? ? (_ & X) _]; auto.
      cbn [app] in L. apply linked_mid in L. destruct L as [L _]. apply L; auto. }
    assert (FO : forest (sl (hd scrap0 m)) (flat_map kids m) (sr (last m scrap0))).
    { destruct TM as (x & y & TM). assert (X : sl (hd scrap0 m) = x /\ sr (last m scrap0) = y).
      { destruct (exists_last NM) as (m' & z & E). split; [destruct m; [congruence|]; cbn in TM |- *; tauto|].
        rewrite E in *. rewrite last_last. apply tiles_app in TM. destruct TM as (j & _ & TM). cbn in TM. tauto. }
      destruct X as [-> ->]. apply forest_flat; auto. eapply Forall_impl; [|exact FM]. intros s ((_ & X & _) & _). exact X. }
    split; [|exact EC]. unfold base. split; [destruct r; try discriminate P; split; (discriminate || reflexivity)|].
    split; [exact FO|]. split; [rewrite NI; discriminate|].
    destruct m as [|h m]; [congruence|]. inversion FM as [|? ? ((_ & _ & _ & X) & _) _]. exact X.
  - apply (linked_meld et_ok m); auto.
    + intros y [H1 H2]. unfold et_ok, merge. cbn [clz].
      destruct r; try discriminate P; cbn [lhs target1] in *; inv_map; cbn [hd] in *;
        (split; [|intros [_ X]; discriminate]); try (intros _ X; discriminate); intros E _.
      1,2,4: apply H1; auto. exfalso. apply H2. auto.
    + intros y _. unfold et_ok, merge. cbn [clz].
      split; [intros X; destruct r; discriminate|intros [X _]; destruct r; discriminate].
  - apply tiles_meld; auto.
  - unfold numbers1 in *. destruct rtl.
    + apply (linked_meld an_after m); auto.
      * intros y H E. apply H. cbn in E. destruct r; try discriminate E; cbn [lhs] in ML; inv_map; auto.
      * intros y H E. specialize (H E). destruct H as [H1 H2]. cbn [merge clz]. split; [|destruct r; discriminate].
        revert H1. destruct r; try discriminate P; cbn [lhs target1] in *; try reflexivity; inv_map; cbn [last];
          match goal with H : clz ?s = _ |- ntr (clz ?s) = false -> _ => rewrite H end; discriminate.
    + apply (forall_meld only_l m); auto. intros FO. destruct m as [|h m]; [congruence|]. inversion FO as [|? ? (H1 & H2 & H3) _]; subst.
      unfold only_l, merge. cbn. split; [destruct r; discriminate|auto].
  - rewrite <- MM, !marks_app, marks_cons, marks_merge; auto. apply (lhs_noniso r); auto.
Qed.

(* An isolate is replaced by a neutral. *)
Definition isolated (i : scrap) (w : list scrap) (p : scrap) : scrap := mks cNI (sl i) (sr p) dc0 [i :: w ++ [p]].
Lemma N1_iso lo hi M a i body p b w : N1 lo hi M (a ++ i :: body ++ p :: b) -> isinit i = true -> clz p = cPDI ->
  tiles (sl i) (i :: w ++ [p]) (sr p) -> Forall sane w -> Forall (fun s => forest (sl s) (kids s) (sr s)) w -> marks w = marks body ->
  N1 lo hi M (a ++ isolated i w p :: b).
Proof.
  intros (F & L & T & N & MM) II PP T2 FS FF MW.
  assert (EQ : a ++ i :: body ++ p :: b = a ++ (i :: body ++ [p]) ++ b) by (cbn [app]; rewrite <- app_assoc; reflexivity).
  assert (LP : last (i :: body ++ [p]) scrap0 = p) by (rewrite app_comm_cons; apply last_last).
  assert (BI : basen1 i) by (rewrite Forall_forall in F; apply F; apply in_or_app; right; left; reflexivity).
  assert (BP : basen1 p) by (rewrite Forall_forall in F; apply F; apply in_or_app; right; right; apply in_or_app; right; left; reflexivity).
  destruct BI as ((_ & _ & KI & _) & _). destruct BP as ((_ & _ & KP & _) & _).
  specialize (KI (proj1 (init_iso _ II))). specialize (KP (proj1 (pdi_iso _ PP))).
  rewrite EQ in *. split; [|split; [|split; [|split]]].
  - apply (forall_meld basen1 (i :: body ++ [p])); auto. intros _. split; [|discriminate]. unfold base. cbn.
    split; [split; (discriminate || reflexivity)|]. split; [|split; [discriminate|auto]].
    apply forest_cons; auto; try lia. constructor. lia.
  - apply (linked_meld et_ok (i :: body ++ [p])); auto; [discriminate| |].
    + intros y _. split; [intros _ X; discriminate|intros [_ X]; discriminate].
    + intros y _. split; [intros X; discriminate|intros [X _]; discriminate].
  - apply (tiles_put (i :: body ++ [p])); auto; [discriminate|]. rewrite LP. reflexivity.
  - unfold numbers1 in *. destruct rtl.
    + apply (linked_meld an_after (i :: body ++ [p])); auto; [discriminate| |].
      * intros y _ X. discriminate.
      * rewrite LP. intros y H X. destruct (H X) as [_ Y]. congruence.
    + apply (forall_meld only_l (i :: body ++ [p])); auto. intros _. split; [discriminate|]. split; [discriminate|reflexivity].
  - rewrite <- MM, !marks_app, marks_cons, (marks_cons i), marks_app. f_equal.
    rewrite (smarks_eq (isolated i w p)). change (isisolate (isolated i w p)) with false. cbn [app isolated kids flat_map].
    rewrite app_nil_r, (marks_cons i), marks_app, MW. reflexivity.
Qed.

(* ---- pass 2 ---- *)
Definition basen2 (s : scrap) : Prop := base s /\ clz s <> cPDI /\ weak (clz s) = false.
Definition N2i (i : scrap) (lo hi : Z) (M : list (Z * Z * Z)) (w : list scrap) : Prop :=
  (exists w', w = i :: w' /\ isinit i = true /\ Forall (fun s => isisolate s = false) w') /\
  Forall basen2 w /\ tiles lo w hi /\ numbers rtl w /\ marks w = M.

Lemma N2_fine i lo hi M w : N2i i lo hi M w -> Forall (fine_scrap (K rtl)) w.
Proof.
  intros (_ & F & _ & N & _). apply Forall_forall. intros s I. rewrite Forall_forall in F.
  destruct (F s I) as ((B1 & B2 & B3 & B4) & B5 & B6). split; auto. split; auto. intros _. unfold K, se, so, numbers in *.
  destruct rtl.
  - destruct B4 as [-> | ->]; cbn; auto.
  - rewrite Forall_forall in N. destruct (N s I) as (_ & X2 & X3). rewrite X3. split; [auto|]. intros X. exfalso. apply X2. exact X.
Qed.

Lemma front_meld m c a b i w' : m <> [] -> a ++ m ++ b = i :: w' -> isinit i = true -> Forall (fun s => isisolate s = false) w' ->
  Forall (fun s => isisolate s = false) m -> isisolate (merge c m) = false ->
  exists w'', a ++ merge c m :: b = i :: w'' /\ Forall (fun s => isisolate s = false) w''.
Proof.
  intros NM E II F H1 H2. destruct a as [|y a].
  - destruct m as [|h m]; [congruence|]. cbn in E. injection E as E _. rewrite E in H1. inversion H1 as [|? ? X _].
    apply init_iso in II. destruct II as [II _]. congruence.
  - cbn [app] in *. injection E as -> <-. eexists. split; [reflexivity|].
    apply (forall_meld _ m); auto.
Qed.

Lemma merge_base (m : list scrap) c lo hi (P : scrap -> Prop) : m <> [] -> tiles lo m hi -> Forall base m -> is_class c ->
  isisolate (merge c m) = false -> base (merge c m).
Proof.
  intros NM T F C NI. unfold base. split; [exact C|]. split; [|split; [rewrite NI; discriminate|]].
  - assert (X : sl (merge c m) = lo /\ sr (merge c m) = hi).
    { unfold merge. cbn [sl sr]. destruct (exists_last NM) as (m' & z & E). split; [destruct m; [congruence|]; cbn in T |- *; tauto|].
      rewrite E in *. rewrite last_last. apply tiles_app in T. destruct T as (j & _ & T). cbn in T. tauto. }
    destruct X as [-> ->]. apply forest_flat; auto. eapply Forall_impl; [|exact F]. intros s (_ & X & _). exact X.
  - destruct m as [|h m]; [congruence|]. inversion F as [|? ? (_ & _ & _ & X) _]. exact X.
Qed.

Lemma N2_meld i lo hi M a m b r : N2i i lo hi M (a ++ m ++ b) -> melds r -> map clz m = lhs r -> N2i i lo hi M (a ++ merge (target2 r) m :: b).
Proof.
  intros ((w' & E & II & FI) & F & T & N & MM) R ML.
  assert (NM : m <> []) by (destruct m; [destruct R as [-> | [-> | [-> | ->]]]; discriminate ML|discriminate]).
  assert (NI : Forall (fun s => isisolate s = false) m) by (apply (lhs_noniso r); auto; destruct R as [-> | [-> | [-> | ->]]]; cbn; tauto).
  assert (NT : isisolate (merge (target2 r) m) = false) by (destruct R as [-> | [-> | [-> | ->]]]; reflexivity).
  assert (HC : clz (hd scrap0 m) = target2 r).
  { destruct R as [-> | [-> | [-> | ->]]]; cbn [lhs] in ML; inv_map; cbn [hd target2]; auto. }
  split; [|split; [|split; [|split]]].
  - destruct (front_meld m (target2 r) a b i w' NM E II FI NI NT) as (w'' & X & Y). eauto.
  - apply (forall_meld basen2 m); auto. intros FM. apply tiles_app in T. destruct T as (x & _ & T). apply tiles_app in T. destruct T as (y & T & _).
    split; [apply (merge_base m _ x y (fun _ => True)); auto; [|destruct R as [-> | [-> | [-> | ->]]]; split; (discriminate || reflexivity)]|].
    + eapply Forall_impl; [|exact FM]. intros s (X & _). exact X.
    + destruct R as [-> | [-> | [-> | ->]]]; split; (discriminate || reflexivity).
  - apply tiles_meld; auto.
  - unfold numbers in *. destruct rtl.
    + apply (linked_meld an_ok m); auto.
      * intros y _ X. cbn in X. destruct R as [-> | [-> | [-> | ->]]]; discriminate X.
      * intros y _ X. cbn. destruct R as [-> | [-> | [-> | ->]]]; reflexivity.
    + apply (forall_meld only_l m); auto. intros FM. destruct m as [|h m]; [congruence|].
      inversion FM as [|? ? (H1 & H2 & H3) _]; subst. unfold only_l, merge. cbn [clz sctx hd] in *. rewrite <- HC. auto.
  - rewrite <- MM, !marks_app, marks_cons, marks_merge; auto.
Qed.

Lemma N2_set i lo hi M a s b c : N2i i lo hi M (a ++ s :: b) -> is_neutral s -> (K rtl c \/ c = cNI \/ c = cBRACKO) ->
  N2i i lo hi M (a ++ with_clz s c :: b).
Proof.
  intros ((w' & E & II & FI) & F & T & N & MM) NE C.
  assert (CC : c = cL \/ rtl = true /\ c = cR \/ c = cNI \/ c = cBRACKO) by (unfold K in C; tauto).
  assert (NI : isisolate s = false) by (unfold isisolate; destruct NE as [-> | [-> | ->]]; reflexivity).
  change (a ++ s :: b) with (a ++ [s] ++ b) in *. rewrite <- (merge_one c s).
  assert (NT : isisolate (merge c [s]) = false) by (unfold isisolate, merge; cbn; destruct CC as [-> | [[_ ->] | [-> | ->]]]; reflexivity).
  split; [|split; [|split; [|split]]].
  - destruct (front_meld [s] c a b i w' ltac:(discriminate) E II FI ltac:(auto) NT) as (w'' & X & Y). eauto.
  - apply (forall_meld basen2 [s]); auto. intros FM. apply tiles_app in T. destruct T as (x & _ & T). apply tiles_app in T. destruct T as (y & T & _).
    split; [apply (merge_base [s] _ x y (fun _ => True)); auto|].
    + discriminate.
    + eapply Forall_impl; [|exact FM]. intros z (X & _). exact X.
    + destruct CC as [-> | [[_ ->] | [-> | ->]]]; split; (discriminate || reflexivity).
    + destruct CC as [-> | [[_ ->] | [-> | ->]]]; split; (discriminate || reflexivity).
  - apply tiles_meld; auto. discriminate.
  - unfold numbers in *. destruct rtl.
    + apply (linked_meld an_ok [s]); auto; [discriminate| |].
      * intros y _ X. cbn in X. destruct CC as [-> | [[_ ->] | [-> | ->]]]; discriminate X.
      * intros y H X. specialize (H X). cbn [last] in H. exfalso. unfold ntr in H. destruct NE as [E1 | [E1 | E1]]; rewrite E1 in H; discriminate.
    + apply (forall_meld only_l [s]); auto. intros FM. inversion FM as [|? ? (H1 & H2 & H3) _]; subst.
      unfold only_l, merge. cbn. split; auto. destruct CC as [-> | [[X _] | [-> | ->]]]; discriminate.
  - rewrite <- MM, !marks_app, marks_cons, marks_merge; auto. 
Qed.

Lemma N2_harm i lo hi M a m b r : N2i i lo hi M (a ++ m ++ b) -> harmful r -> map clz m <> lhs r.
Proof.
  intros (_ & F & _ & N & _) R ML.
  assert (FM : Forall basen2 m) by (apply Forall_app in F; destruct F as [_ F]; apply Forall_app in F; tauto).
  destruct R as [-> | R].
  - cbn [lhs] in ML. inv_map. unfold numbers in N. destruct rtl.
    + cbn [app] in N.
      assert (X : an_ok s0 s1).
      { change (a ++ s :: s0 :: s1 :: b) with (a ++ [s] ++ s0 :: s1 :: b) in N. rewrite app_assoc in N. apply (linked_mid _ _ _ _ _ N). }
      specialize (X ltac:(assumption)). unfold ntr in X. rewrite H0 in X. discriminate.
    + apply Forall_app in N. destruct N as [_ N]. inversion N as [|? ? (X & _) _]; subst. auto.
  - assert (EN : exists s, In s m /\ clz s = cEN).
    { destruct R as [-> | [-> | ->]]; cbn [lhs] in ML; inv_map.
      1,2: exists s1; split; [right; right; left; auto|auto]. exists s. split; [left; auto|auto]. }
    destruct EN as (s & I & E). rewrite Forall_forall in FM. destruct (FM s I) as (_ & _ & W). rewrite E in W. discriminate.
Qed.

Lemma N2_start lo hi M i w : N1 lo hi M w -> Forall (fun s => weak (clz s) = false) w -> Forall (fun s => isisolate s = false) w ->
  isinit i = true -> base i -> sr i = lo -> sl i <= sr i -> (rtl = false -> only_l i) -> N2i i (sl i) hi (smarks i ++ M) (i :: w).
Proof.
  intros (F & L & T & N & MM) W NI II BI SI_ LE OL. destruct (init_iso _ II) as [IS IP].
  split; [exists w; auto|]. split; [|split; [|split]].
  - constructor.
    + split; auto. split; auto. unfold isisolate in IS. unfold weak. destruct (Z.eqb_spec (clz i) cLRI) as [->|_]; [reflexivity|].
      destruct (Z.eqb_spec (clz i) cRLI) as [->|_]; [reflexivity|]. destruct (Z.eqb_spec (clz i) cFSI) as [->|_]; [reflexivity|].
      destruct (Z.eqb_spec (clz i) cPDI) as [X|_]; [congruence|discriminate].
    + rewrite Forall_forall in *. intros s I. destruct (F s I) as [A B]. split; auto. split; [|auto].
      intros X. apply pdi_iso in X. rewrite NI in X by auto. destruct X; discriminate.
  - cbn [tiles]. rewrite SI_. split; [auto|split; [lia|auto]].
  - unfold numbers, numbers1 in *. destruct rtl; [|constructor; auto].
    assert (Y : linked an_ok w).
    { clear - N. induction w as [|s w IH]; [exact I|]. destruct w as [|t w]; [exact I|]. destruct N as [N1 N2]. split; [|apply IH; exact N2].
      intros X. destruct (N1 X). auto. }
    destruct w as [|s w]; [exact I|]. split; auto. intros _. unfold ntr. unfold isisolate in IS.
    destruct (Z.eqb_spec (clz i) cLRI) as [->|_]; [reflexivity|]. destruct (Z.eqb_spec (clz i) cRLI) as [->|_]; [reflexivity|].
    destruct (Z.eqb_spec (clz i) cFSI) as [->|_]; [reflexivity|]. destruct (Z.eqb_spec (clz i) cPDI) as [X|_]; [congruence|discriminate].
  - rewrite marks_cons, MM. reflexivity.
Qed.
End Nested.
Section Parser.
Context {store : Type} (findBr : store -> scrap -> option scrap * store) (changeBr : store -> scrap -> store).
Notation pst := (pst store).

Definition room (p : pst) (post pend : list scrap) : Prop :=
  room1 0 (post ++ pend) /\ room2 0 (length pend) post /\ (p_eof p = true -> inits (post ++ pend) = 0%nat).

(* ---- reading ---- *)
Lemma read_loop_eof : forall n (p : pst) pend extra, reading p pend extra -> p_eof p = false -> (n <= length pend)%nat ->
  p_eof (snd (read_loop n p)) = false.
Proof.
  induction n as [|n IH]; intros p pend extra [N R] E L; [exact E|].
  rewrite E in R. destruct R as (stp & S1 & S2). destruct pend as [|s t]; [cbn in L; lia|].
  inversion N as [|? ? N1 N2]; subst. cbn [read_loop]. rewrite S2. cbn [receive app].
  destruct (Z.eqb_spec (clz s) cNULL) as [X|_]; [congruence|].
  set (q := mkp _ _ _ _ _ _). specialize (IH q t extra). destruct (read_loop n q) as [k p']. cbn [snd] in *.
  apply IH; [|exact E|cbn [length] in L; lia]. split; auto. unfold q. cbn [p_eof p_pipe]. rewrite E. eauto.
Qed.

Lemma fill_room (p : pst) u post pend extra : p_stack p = u ++ post -> p_sp p = length u -> reading p pend extra -> room p post pend ->
  exists ex pend', pend = ex ++ pend' /\ p_stack (fill p) = u ++ post ++ ex /\ p_sp (fill p) = length u /\
    reading (fill p) pend' extra /\ p_depth (fill p) = p_depth p /\ p_store (fill p) = p_store p /\
    (post ++ ex = [] -> p_eof (fill p) = true) /\
    ((3 <= length post)%nat \/ pend = [] -> ex = []) /\ ((3 <= length (post ++ ex))%nat \/ pend' = []) /\ room (fill p) (post ++ ex) pend'.
Proof.
  intros ES EP R (A1 & A2 & A3). destruct (fill_spec p u post pend extra ES EP R) as (ex & pend' & -> & B1 & B2 & B3 & B4 & B5 & B6 & B7 & B8).
  exists ex, pend'. do 9 (split; auto). unfold room. rewrite <- app_assoc. split; [auto|].
  destruct (p_eof p) eqn:EE.
  - specialize (A3 eq_refl). split; [|auto]. apply room2_plain. rewrite app_assoc, inits_app in A3. lia.
  - destruct (Nat.le_gt_cases 3 (length post)) as [L3|L3].
    + rewrite (B7 (or_introl L3)) in *. cbn [app] in *. rewrite app_nil_r. split; auto. intros X. exfalso.
      unfold fill, read in X. rewrite ES, EP in X. replace (3 + length u - length (u ++ post))%nat with 0%nat in X by (rewrite app_length; lia).
      cbn in X. congruence.
    + assert (L : (length (post ++ ex) <= 3)%nat).
      { assert (Y : p_stack (fill p) = p_stack p ++ firstn (3 - length post) (ex ++ pend')).
        { unfold fill, read. rewrite ES, EP, EE. replace (3 + length u - length (u ++ post))%nat with (3 - length post)%nat by (rewrite app_length; lia).
          destruct (Nat.eqb_spec (3 - length post) 0) as [X|_]; [lia|]. cbn [orb].
          destruct (read_loop_spec (3 - length post) p (ex ++ pend') extra R EE) as (k & p' & X & Y & _). rewrite X. rewrite <- ES. exact Y. }
        rewrite B1, ES, <- app_assoc in Y. apply app_inv_head in Y. apply app_inv_head in Y. rewrite Y, app_length, firstn_length. lia. }
      split; [apply room12; auto; rewrite <- app_assoc; exact A1|]. intros X.
      apply (room1_short _ 0); auto. destruct (Nat.lt_ge_cases (length (post ++ ex ++ pend')) 3) as [Y|Y]; auto. exfalso.
      unfold fill, read in X. rewrite ES, EP, EE in X. replace (3 + length u - length (u ++ post))%nat with (3 - length post)%nat in X by (rewrite app_length; lia).
      destruct (Nat.eqb_spec (3 - length post) 0) as [Z0|_]; [lia|]. cbn [orb] in X.
      pose proof (read_loop_eof (3 - length post) p (ex ++ pend') extra R EE) as Z0. rewrite app_length in Y.
      specialize (Z0 ltac:(lia)). destruct (read_loop _ p) as [k p']. cbn [snd] in Z0. congruence.
Qed.

(* ---- putting one scrap in place of some ---- *)
Lemma reduce_meld (p : pst) u m v x start :
  p_stack p = u ++ m ++ v -> p_sp p = length u -> m <> [] -> (start <= S (length u))%nat ->
  reduce p (length m) [x] start = Some (with_stack p (u ++ x :: v)).
Proof.
  intros ES EP NM ST.
  assert (L : length (u ++ m ++ v) = (length u + length m + length v)%nat) by (rewrite !app_length; lia).
  unfold reduce, overwrite. rewrite ES, EP. cbn [length].
  assert (M1 : (1 <= length m)%nat) by (destruct m; [congruence|cbn; lia]).
  destruct (Nat.leb_spec (length u + 1) (length (u ++ m ++ v))) as [_|X]; [|lia]. cbn [obind].
  set (st := firstn (length u) (u ++ m ++ v) ++ [x] ++ skipn (length u + 1) (u ++ m ++ v)).
  assert (E1 : st = u ++ x :: tl m ++ v).
  { unfold st. rewrite firstn_app, firstn_all, Nat.sub_diag. cbn [firstn]. rewrite app_nil_r.
    rewrite skipn_app, skipn_all2 by lia. replace (length u + 1 - length u)%nat with 1%nat by lia.
    destruct m; [congruence|]. reflexivity. }
  assert (LS : length st = length (u ++ m ++ v)).
  { rewrite E1, L, app_length. cbn [length]. rewrite app_length. destruct m; [congruence|]. cbn [tl length]. lia. }
  replace (Nat.max start (length u + 1)) with (S (length u)) by lia.
  set (from := (_ - _)%Z).
  assert (FR : Z.to_nat from = (length u + length m)%nat /\ from = Z.of_nat (length u + length m)) by (unfold from; lia).
  destruct FR as [F1 F2].
  destruct (Nat.leb_spec (S (length u)) (length st)) as [_|X]; [|lia].
  destruct (Z.leb_spec 0 from) as [_|X]; [|lia].
  destruct (Z.leb_spec from (zlen st)) as [_|X]; [|unfold zlen in X; lia]. cbn [andb].
  rewrite F1. f_equal.
  assert (E2 : firstn (S (length u)) st ++ skipn (length u + length m) st = u ++ x :: v).
  { rewrite E1. rewrite firstn_app, firstn_all2 by lia. replace (S (length u) - length u)%nat with 1%nat by lia.
    cbn [firstn]. rewrite skipn_app, skipn_all2 by lia. replace (length u + length m - length u)%nat with (length m) by lia.
    destruct m as [|y m]; [congruence|]. cbn [length skipn tl app].
    rewrite skipn_app, skipn_all, Nat.sub_diag. cbn [skipn app]. rewrite <- app_assoc. reflexivity. }
  rewrite E2. reflexivity.
Qed.

Lemma within m : forall v post tail, m ++ v = post ++ tail -> ending tail -> Forall (fun s => isisolate s = false) m ->
  exists post', post = m ++ post' /\ v = post' ++ tail.
Proof.
  induction m as [|x m IH]; intros v post tail E T F; [exists post; auto|].
  inversion F as [|? ? F1 F2]; subst. destruct post as [|y post].
  - cbn in E. subst tail. destruct T as [T|(pdi & more & T & TC)]; [discriminate|]. cbn [app] in T. injection T as T _. rewrite <- T in TC.
    apply pdi_iso in TC. destruct TC as [TC _]. congruence.
  - injection E as <- E. destruct (IH _ _ _ E T F2) as (post' & -> & ->). exists post'. auto.
Qed.

Notation pass1_loop := (pass1_loop the_trie the_tab findBr changeBr).
Notation pass2 := (pass2 the_trie the_tab findBr changeBr).
Notation parseIRS := (parseIRS the_trie the_tab findBr changeBr).
Context (rtl : bool) (SI : store -> Prop).
Context (find_ok : forall b s a b', SI b -> findBr b s = (a, b') -> SI b' /\
  (clz s = cBRACKC -> forall o, a = Some o -> K rtl (clz o) \/ clz o = cNI \/ clz o = cBRACKO)).
Context (change_ok : forall b s, SI b -> K rtl (clz s) \/ clz s = cNI -> SI (changeBr b s)).

(* More that is kept by the two passes in an isolating run: [Y1] of the scraps before the stack pointer and
   those behind it up to the end of the run, [Y2] likewise, with the initiator; [lvl] tells one run from
   another. *)
Notation noniso := (Forall (fun s => isisolate s = false)).
Notation strongs := (Forall (fun s => weak (clz s) = false)).
Context {lvl : Type} (Y1 : lvl -> list scrap -> list scrap -> Prop) (Y2 : lvl -> scrap -> list scrap -> list scrap -> Prop).
Context (Y1_rw : forall l lo hi M a m b r, N1 rtl lo hi M (a ++ m ++ b) -> Y1 l a (m ++ b) -> In r stored -> pass r = 1 -> map clz m = lhs r ->
  noniso a -> strongs a -> (lhsLen r = 1%nat -> no_long (m ++ b)) ->
  Y1 l (firstn (length a - back r) a) (skipn (length a - back r) a ++ merge (target1 r) m :: b)).
Context (Y1_step : forall l lo hi M a s b, N1 rtl lo hi M (a ++ s :: b) -> Y1 l a (s :: b) -> weak (clz s) = false -> isisolate s = false ->
  noniso a -> strongs a -> no_long (s :: b) -> Y1 l (a ++ [s]) b).
Context (Y1_iso : forall l lo hi M a i b p v, N1 rtl lo hi M (a ++ i :: b ++ p :: v) -> Y1 l a (i :: b ++ p :: v) ->
  isinit i = true -> bal b -> clz p = cPDI -> bal v -> noniso a -> strongs a ->
  exists l', Y1 l' [] b /\ forall w lo' hi' M', N2i rtl i lo' hi' M' (i :: w) -> Y2 l' i (i :: w) [] -> Y1 l a (isolated i w p :: v)).
Context (Y12 : forall l lo hi M i w, N1 rtl lo hi M w -> Y1 l w [] -> noniso w -> strongs w -> isinit i = true -> Y2 l i [] (i :: w)).
Context (Y2_meld : forall l i lo hi M a m b r, N2i rtl i lo hi M (a ++ m ++ b) -> Y2 l i a (m ++ b) -> melds r -> map clz m = lhs r ->
  Y2 l i a (merge (target2 r) m :: b)).
Context (Y2_N2 : forall l i lo hi M a s b, N2i rtl i lo hi M (a ++ s :: b) -> Y2 l i a (s :: b) -> clz s = cNI ->
  Y2 l i (firstn (length a - 1) a) (skipn (length a - 1) a ++ with_clz s (se s) :: b)).
Context (Y2_step : forall l i lo hi M a s b, N2i rtl i lo hi M (a ++ s :: b) -> Y2 l i a (s :: b) -> clz s <> cNI -> isbracket s = false ->
  no_meld (s :: b) -> Y2 l i (a ++ [s]) b).
Context (Y2_bracket : forall l i lo hi M a s b, N2i rtl i lo hi M (a ++ s :: b) -> Y2 l i a (s :: b) -> isbracket s = true ->
  Y2 l i (a ++ [s]) b /\ forall c u v, u ++ v = a ++ with_clz s c :: b -> Y2 l i u v).

Lemma no_long_prefix a b : no_long (a ++ b) -> no_long a.
Proof. intros H r m v I P L E. apply (H r m (v ++ b) I P L). rewrite E, <- app_assoc. reflexivity. Qed.

Definition open_end (h : list scrap) : Prop := h = [] \/ exists h' i, h = h' ++ [i] /\ clz i <> cPDI.
Definition past (tail : list scrap) : nat := match tail with [] => 0 | _ => 1 end.

Lemma K_two c : K rtl c -> c = cL \/ c = cR.
Proof. intros [X|[_ X]]; auto. Qed.
Lemma K_not c : K rtl c -> (c =? cBRACKC) = false /\ (c =? cBRACKO) = false /\ (c =? cNI) = false.
Proof. intros H. destruct (K_two c H) as [-> | ->]; auto. Qed.

Lemma open_app h w : open_end h -> Forall (fun s => clz s <> cPDI) w -> open_end (h ++ w).
Proof.
  intros O F. destruct (list_eq_dec Nat.eq_dec [] []) as [_|X]; [|congruence].
  destruct w as [|x w]; [rewrite app_nil_r; exact O|]. right. destruct (exists_last (l := x :: w)) as (u & y & E); [discriminate|].
  rewrite E in *. exists (h ++ u), y. rewrite app_assoc. split; auto. apply Forall_app in F. destruct F as [_ F]. inversion F; auto.
Qed.

Lemma pass2_nested l i lo hi M hd0 tail : open_end hd0 -> ending tail -> Forall (fun s => is_class (clz s)) tail ->
  forall n B pre post (p : pst),
  p_stack p = hd0 ++ pre ++ post ++ tail -> p_sp p = length (hd0 ++ pre) -> N2i rtl i lo hi M (pre ++ post) -> Y2 l i pre post -> SI (p_store p) ->
  (length (pre ++ post) <= B)%nat -> (fuel2 B (pre ++ post) post + 1 < n)%nat ->
  exists p' w, pass2 n (length hd0) p = Ok p' /\ N2i rtl i lo hi M w /\ Y2 l i w [] /\ (length w <= B)%nat /\
    p_stack p' = hd0 ++ w ++ tail /\ p_sp p' = (length (hd0 ++ w) + past tail)%nat /\
    p_eof p' = p_eof p /\ p_pipe p' = p_pipe p /\ p_depth p' = p_depth p /\ SI (p_store p').
Proof.
  intros OE TE TC. induction n as [|n IH]; intros B pre post p ES EP GG YY SS LB FU; [lia|].
  pose proof (N2_fine rtl _ _ _ _ _ GG) as FN.
  assert (PD : (match p_sp p with
                | O => Some false
                | S k => do s <- nth_error (p_stack p) k; Some (clz s =? cPDI)
                end) = Some false).
  { assert (OP : open_end (hd0 ++ pre)).
    { apply open_app; auto. apply Forall_app in FN. destruct FN as [FN _]. eapply Forall_impl; [|exact FN]. intros s (_ & X & _). exact X. }
    rewrite ES, EP. rewrite app_assoc. destruct OP as [->|(h' & j & -> & IC)]; [reflexivity|].
    rewrite app_length. cbn [length]. rewrite Nat.add_1_r, <- app_assoc, nth_error_app2, Nat.sub_diag by lia. cbn [app nth_error obind].
    apply Z.eqb_neq in IC. rewrite IC. reflexivity. }
  cbn [Resolver.pass2]. rewrite PD. cbn [lift rbind orb]. rewrite app_assoc in ES. rewrite ES, EP.
  destruct post as [|s t].
  { rewrite app_nil_r in GG, LB. cbn [app]. destruct tail as [|pdi more].
    - rewrite app_nil_r, Nat.leb_refl. exists p, pre. split; [reflexivity|]. do 3 (split; auto).
      rewrite ES, EP. cbn [app past]. rewrite <- app_assoc. split; [reflexivity|]. split; [lia|auto].
    - destruct TE as [TE|(pdi' & more' & TE & PP)]; [discriminate|]. injection TE as <- <-.
      destruct (Nat.leb_spec (length ((hd0 ++ pre) ++ pdi :: more)) (length (hd0 ++ pre))) as [X|_]; [rewrite app_length in X; cbn [length] in X; lia|].
      assert (NT : nth_error ((hd0 ++ pre) ++ pdi :: more) (length (hd0 ++ pre)) = Some pdi).
      { rewrite nth_error_app2, Nat.sub_diag by lia. reflexivity. }
      rewrite NT. cbn [lift rbind]. replace (isbracket pdi) with false by (unfold isbracket; rewrite PP; reflexivity).
      rewrite (match_spec_at p (hd0 ++ pre) (pdi :: more)) by (auto; lia). cbn [rbind].
      assert (LO : long_rule stored (map clz (pdi :: more)) = None).
      { destruct (long_rule stored (map clz (pdi :: more))) as [r|] eqn:E; [|reflexivity]. exfalso.
        destruct (long_found _ _ E) as [I (m & v & EM & ML)]. pose proof (lhs_noniso r m I ML) as F.
        destruct m as [|x m]; [destruct r; discriminate ML|]. injection EM as <- _. inversion F as [|? ? F1 _].
        apply pdi_iso in PP. destruct PP. congruence. }
      rewrite LO. cbn [map firstn]. rewrite PP. change (rule_for stored [cPDI]) with (@None rule). cbn match.
      destruct n as [|n]; [lia|]. cbn [Resolver.pass2 with_sp p_sp p_stack]. rewrite ES. cbn [app]. rewrite NT. cbn [obind lift rbind].
      rewrite PP. change (cPDI =? cPDI) with true. cbn [orb].
      eexists _, pre. split; [reflexivity|]. do 3 (split; auto). cbn [with_sp p_stack p_sp p_eof p_pipe p_depth p_store past].
      rewrite ES. cbn [app]. rewrite <- app_assoc. split; [reflexivity|]. split; [lia|auto]. }
  cbn [app] in ES. cbn [app].
  destruct (Nat.leb_spec (length ((hd0 ++ pre) ++ s :: t ++ tail)) (length (hd0 ++ pre))) as [X|_]; [rewrite app_length in X; cbn [length] in X; lia|].
  assert (NT : nth_error ((hd0 ++ pre) ++ s :: t ++ tail) (length (hd0 ++ pre)) = Some s).
  { rewrite nth_error_app2, Nat.sub_diag by lia. reflexivity. }
  rewrite NT. cbn [lift rbind].
  assert (FS : fine_scrap (K rtl) s) by (rewrite Forall_forall in FN; apply FN; apply in_or_app; right; left; auto).
  destruct FS as (FC & FP & FK).
  (* continuing after a change that lowers the weight *)
  assert (CONT : forall v x q k, p_stack q = (hd0 ++ pre) ++ x :: v ++ tail -> p_sp q = (length hd0 + k)%nat -> (k <= S (length pre))%nat ->
    N2i rtl i lo hi M (pre ++ x :: v) -> Y2 l i (firstn k (pre ++ x :: v)) (skipn k (pre ++ x :: v)) ->
    SI (p_store q) -> p_eof q = p_eof p -> p_pipe q = p_pipe p -> p_depth q = p_depth p ->
    (exists m, m ++ v = s :: t /\ (wt2 x < weight wt2 m)%nat /\ (1 <= length m)%nat) ->
    exists p' w, pass2 n (length hd0) q = Ok p' /\ N2i rtl i lo hi M w /\ Y2 l i w [] /\ (length w <= B)%nat /\
    p_stack p' = hd0 ++ w ++ tail /\ p_sp p' = (length (hd0 ++ w) + past tail)%nat /\
    p_eof p' = p_eof p /\ p_pipe p' = p_pipe p /\ p_depth p' = p_depth p /\ SI (p_store p')).
  { intros v x q k Q1 Q2 Q3 Q4 QY Q5 Q6 Q7 Q8 (m & EM & WX & LM).
    set (w := pre ++ x :: v) in *.
    assert (LW : (length w <= B)%nat).
    { unfold w. rewrite <- EM in LB. rewrite !app_length in *. cbn [length]. lia. }
    assert (SL : (k <= length w)%nat) by (unfold w; rewrite app_length; cbn [length]; lia).
    destruct (IH B (firstn k w) (skipn k w) q) as (p' & w' & E & D); rewrite ?firstn_skipn; auto.
    - rewrite Q1. rewrite (app_assoc (firstn k w)), firstn_skipn. unfold w. rewrite <- !app_assoc. reflexivity.
    - rewrite Q2, app_length, firstn_length. lia.
    - assert (WT : (weight wt2 w < weight wt2 (pre ++ s :: t))%nat).
      { unfold w. rewrite <- EM, !weight_app. change (weight wt2 (x :: v)) with (wt2 x + weight wt2 v)%nat. lia. }
      assert (LQ : (length (skipn k w) <= B)%nat) by (rewrite skipn_length; lia).
      unfold fuel2 in *. revert WT FU LQ. generalize (weight wt2 w) (weight wt2 (pre ++ s :: t)) (length (skipn k w)).
      intros a b k0 WT FU LQ. assert (a * (B + 1) + (B + 1) <= b * (B + 1))%nat by nia. lia.
    - exists p', w'. rewrite <- Q6, <- Q7, <- Q8. auto. }
  (* walking on *)
  assert (STEP : forall q, p_stack q = (hd0 ++ pre) ++ s :: t ++ tail -> p_sp q = S (length (hd0 ++ pre)) -> SI (p_store q) -> p_eof q = p_eof p ->
    p_pipe q = p_pipe p -> p_depth q = p_depth p -> Y2 l i (pre ++ [s]) t ->
    exists p' w, pass2 n (length hd0) q = Ok p' /\ N2i rtl i lo hi M w /\ Y2 l i w [] /\ (length w <= B)%nat /\
    p_stack p' = hd0 ++ w ++ tail /\ p_sp p' = (length (hd0 ++ w) + past tail)%nat /\
    p_eof p' = p_eof p /\ p_pipe p' = p_pipe p /\ p_depth p' = p_depth p /\ SI (p_store p')).
  { intros q Q1 Q2 Q3 Q6 Q7 Q8 QY. destruct (IH B (pre ++ [s]) t q) as (p' & w' & E & D); rewrite <- ?app_assoc; auto.
    - rewrite Q1, <- !app_assoc. reflexivity.
    - rewrite Q2, !app_length. cbn. lia.
    - unfold fuel2 in *. cbn [app length] in *. lia.
    - exists p', w'. rewrite <- Q6, <- Q7, <- Q8. auto. }
  destruct (isbracket s) eqn:BR.
  - destruct (Y2_bracket l i lo hi M pre s t GG YY BR) as [YB1 YB2].
    unfold performRuleN0. rewrite ES, EP, NT. cbn [obind].
    destruct (findBr (p_store p) s) as [ans b] eqn:FB.
    destruct (find_ok _ _ _ _ SS FB) as [SB FO].
    destruct (Z.eqb_spec (clz s) cBRACKO) as [BO|BO].
    + assert (NE : is_neutral s) by (right; left; auto). destruct (FK NE) as [K1 K2].
      destruct ans as [cl|].
      * set (cj := if has_match_after cl s then _ else _).
        assert (CJ : exists c jmp, cj = (c, jmp) /\ -2 <= jmp <= 0 /\ (K rtl c \/ c = cNI)).
        { unfold cj. destruct (has_match_after cl s); [exists (se s), (-2); split; auto; split; auto; lia|].
          destruct (has_opposite_after cl s).
          - destruct (Z.eqb_spec (dcStrong (sctx s)) (so s)); eexists _, (-2); split; auto; split; auto; lia.
          - exists cNI, (-1). split; auto. split; auto. lia. }
        destruct CJ as (c & jmp & -> & JJ & KC). cbn [lift rbind].
        apply (CONT t (with_clz s c) _ (jump (length hd0) (length (hd0 ++ pre)) jmp - length hd0)%nat).
        -- cbn. rewrite ES, EP, nset_mid. reflexivity.
        -- cbn. rewrite EP. unfold jump. lia.
        -- unfold jump. rewrite app_length. lia.
        -- apply N2_set; auto. destruct KC as [KC|KC]; auto.
        -- apply (YB2 c), firstn_skipn.
        -- cbn. apply change_ok; auto.
        -- reflexivity.
        -- reflexivity.
        -- reflexivity.
        -- exists [s]. split; auto. split; [|cbn; lia]. unfold weight. cbn [fold_right].
           rewrite (wt2_clz s _ BO). cbn. unfold wt2. cbn [clz with_clz].
           destruct KC as [KC|KC]; [destruct (K_not _ KC) as (-> & -> & ->); lia|rewrite KC; cbn; lia].
      * cbn [lift rbind]. apply STEP; auto.
        -- cbn. rewrite EP. unfold jump. rewrite app_length. lia.
    + assert (BC : clz s = cBRACKC).
      { unfold isbracket in BR. apply orb_true_iff in BR. destruct BR as [X|X]; apply Z.eqb_eq in X; congruence. }
      assert (NE : is_neutral s) by (right; right; auto).
      set (c := match ans with Some o => clz o | None => cNI end).
      assert (KC : K rtl c \/ c = cNI \/ c = cBRACKO) by (unfold c; destruct ans as [o|]; [apply (FO BC o eq_refl)|auto]).
      cbn [lift rbind]. set (jmp := if c =? cNI then 1 else -2).
      apply (CONT t (with_clz s c) _ (jump (length hd0) (length (hd0 ++ pre)) jmp - length hd0)%nat).
      -- cbn. rewrite ES, EP, nset_mid. reflexivity.
      -- cbn. rewrite EP. unfold jump. lia.
      -- unfold jump, jmp. rewrite app_length. destruct (c =? cNI); lia.
      -- apply N2_set; auto.
      -- apply (YB2 c), firstn_skipn.
      -- exact SB.
      -- reflexivity.
      -- reflexivity.
      -- reflexivity.
      -- exists [s]. split; auto. split; [|cbn; lia]. unfold weight. cbn [fold_right].
         rewrite (wt2_clz s _ BC). cbn. unfold wt2. cbn [clz with_clz].
         destruct KC as [KC|[KC|KC]]; [destruct (K_not _ KC) as (-> & -> & ->); lia|rewrite KC; cbn; lia|rewrite KC; cbn; lia].
  - assert (CF : Forall (fun s => is_class (clz s)) (s :: t ++ tail)).
    { apply Forall_app in FN. destruct FN as [_ FN]. rewrite app_comm_cons. apply Forall_app. split; auto.
      eapply Forall_impl; [|exact FN]. intros y (Y & _). exact Y. }
    rewrite (match_spec_at p (hd0 ++ pre) (s :: t ++ tail)) by (auto; lia). cbn [rbind].
    (* applying a rule of pass 2 *)
    assert (RULE : forall r, In r stored -> (pass r <? 2) = false -> (exists m v, s :: t ++ tail = m ++ v /\ map clz m = lhs r) ->
      exists p' w, (let* p0 := Resolver.apply_rule p r (length hd0) 0 in pass2 n (length hd0) p0) = Ok p' /\ N2i rtl i lo hi M w /\ Y2 l i w [] /\ (length w <= B)%nat /\
    p_stack p' = hd0 ++ w ++ tail /\ p_sp p' = (length (hd0 ++ w) + past tail)%nat /\
    p_eof p' = p_eof p /\ p_pipe p' = p_pipe p /\ p_depth p' = p_depth p /\ SI (p_store p')).
    { intros r I PR (m & v0 & EM0 & ML).
      destruct (within m v0 (s :: t) tail (eq_sym EM0) TE (lhs_noniso r m I ML)) as (v & EM & ->).
      assert (ESm : p_stack p = (hd0 ++ pre) ++ m ++ v ++ tail) by (rewrite ES, (app_assoc m), <- EM; reflexivity).
      destruct (stored_pass2 r I) as [R|[R|R]]; [intros X; rewrite X in PR; discriminate| | |].
      - destruct (weight_rule2 r m R ML) as (WL & L1 & LR).
        assert (NM : m <> []) by (destruct m; [cbn in L1; lia|discriminate]).
        destruct (action2 r m (v ++ tail) R ML) as (nl & AC).
        rewrite (apply_meld p r (hd0 ++ pre) m (v ++ tail) _ 0 nl (length hd0) 0 ESm EP NM LR) by (try exact AC; rewrite app_length; lia). cbn [rbind].
        apply (CONT v (merge (target2 r) m) _ (length pre)); auto.
        + cbn. unfold jump. rewrite app_length. lia.
        + rewrite EM in GG. apply N2_meld; auto.
        + rewrite firstn_app, skipn_app, firstn_all, skipn_all, Nat.sub_diag. cbn [firstn skipn]. rewrite app_nil_r. cbn [app].
          rewrite EM in GG, YY. eapply Y2_meld; eauto.
        + exists m. auto.
      - exfalso. rewrite EM in GG. exact (N2_harm rtl _ _ _ _ _ _ _ _ GG R ML).
      - subst r. destruct (action_N2 m (v ++ tail) ML) as (nl & AC).
        assert (E1 : m = [s] /\ clz s = cNI /\ v = t).
        { pose proof ML as ML'. cbn [lhs] in ML'. inv_map. injection EM as <- <-. auto. }
        destruct E1 as (-> & SN & ->). cbn [hd] in AC.
        rewrite (apply_meld p N2 (hd0 ++ pre) [s] (t ++ tail) _ (-1) nl (length hd0) 0 ES EP ltac:(discriminate) eq_refl) by (try exact AC; rewrite app_length; lia). cbn [rbind].
        assert (NE : is_neutral s) by (left; auto). destruct (FK NE) as [K1 K2]. rewrite merge_one.
        assert (PN : (1 <= length pre)%nat).
        { destruct pre as [|y pre]; [|cbn; lia]. exfalso. destruct GG as ((w' & E & II & _) & _). cbn in E. injection E as -> _.
          apply init_iso in II. unfold isisolate in II. rewrite SN in II. destruct II. discriminate. }
        apply (CONT t (with_clz s (se s)) _ (length pre - 1)%nat); auto.
        + cbn. unfold jump. rewrite app_length. lia.
        + lia.
        + apply N2_set; auto.
        + rewrite firstn_app, skipn_app. replace (length pre - 1 - length pre)%nat with 0%nat by lia. cbn [firstn skipn]. rewrite app_nil_r.
          eapply Y2_N2; eauto.
        + exists [s]. split; auto. split; [|cbn; lia]. unfold weight. cbn [fold_right].
          rewrite (wt2_clz s _ SN). cbn. unfold wt2. cbn [clz with_clz]. destruct (K_not _ K1) as (-> & -> & ->). lia. }
    set (chosen := match long_rule stored (map clz (s :: t ++ tail)) with Some r => if pass r <? 2 then _ else _ | None => _ end).
    assert (CH : forall r, chosen = Some r -> In r stored /\ exists m v, s :: t ++ tail = m ++ v /\ map clz m = lhs r).
    { unfold chosen. intros r. destruct (long_rule stored (map clz (s :: t ++ tail))) as [r'|] eqn:LO.
      - destruct (pass r' <? 2); intros X; [apply short_found; exact X|]. injection X as <-. apply long_found. exact LO.
      - intros X. apply short_found. exact X. }
    assert (CS : (match chosen with Some r => pass r <? 2 | None => true end) = true -> Y2 l i (pre ++ [s]) t).
    { intros X. apply (Y2_step l i lo hi M); auto.
      - intros SN. revert X. unfold chosen. destruct (long_rule stored (map clz (s :: t ++ tail))) as [r'|] eqn:LO.
        + destruct (pass r' <? 2) eqn:PR; [cbn [map firstn]; rewrite SN; discriminate|congruence].
        + cbn [map firstn]. rewrite SN. discriminate.
      - intros r m v R EM ML. revert X. unfold chosen. rewrite app_comm_cons, EM, !map_app, ML, <- app_assoc.
        destruct (long_meld r (map clz v ++ map clz tail) R) as [-> PR]. rewrite PR. congruence. }
    destruct chosen as [r|].
    + destruct (CH r eq_refl) as [I SP]. destruct (pass r <? 2) eqn:PR; [|apply RULE; auto].
      apply STEP; auto; cbn; rewrite ?EP; reflexivity.
    + apply STEP; auto; cbn; rewrite ?EP; reflexivity.
Qed.

(* ---- pass 1 ---- *)

Lemma linked_prefix R a b : linked R (a ++ b) -> linked R a.
Proof.
  induction a as [|x a IH]; [intros _; exact I|]. intros L. destruct a as [|y a]; [exact I|]. destruct L as [L1 L2]. split; auto.
Qed.
Lemma N1_prefix lo hi M w p v : N1 rtl lo hi M (w ++ p :: v) -> N1 rtl lo (sl p) (marks w) w /\ sl p <= sr p.
Proof.
  intros (A & B & C & D & E). apply tiles_app in C. destruct C as (k & C1 & C2). cbn [tiles] in C2. destruct C2 as (<- & C2 & _).
  split; [|exact C2]. split; [apply Forall_app in A; tauto|]. split; [exact (linked_prefix _ _ _ B)|]. split; [exact C1|].
  split; [|reflexivity]. unfold numbers1 in *. destruct rtl; [exact (linked_prefix _ _ _ D)|apply Forall_app in D; tauto].
Qed.

Lemma N1_body lo hi M w tail : N1 rtl lo hi M (w ++ tail) -> ending tail -> exists hi' M', N1 rtl lo hi' M' w.
Proof.
  intros G [->|(pdi & more & -> & _)]; [rewrite app_nil_r in G; eauto|]. apply N1_prefix in G. destruct G as [G _]. eauto.
Qed.

Definition fuel (B : nat) (w rest : list scrap) (walk : bool) : nat :=
  (weight wt1 w * (2 * B + 2) + 2 * length rest + (if walk then 0 else 1) + (4 * (B + 1) * (B + 2) + B + 4))%nat.

(* What pass 1 leaves behind; [tail] is what ends the isolating run. *)
Definition left1 (l : lvl) (B : nat) (lo hi : Z) (M : list (Z * Z * Z)) (hd_ tail extra : list scrap) (d : nat) (p' : pst) : Prop :=
  exists w post pend, p_stack p' = hd_ ++ w ++ firstn (past tail) tail ++ post /\ p_sp p' = (length (hd_ ++ w) + past tail)%nat /\
    post ++ pend = skipn (past tail) tail /\ reading p' pend extra /\ room p' post pend /\ (tail = [] -> p_eof p' = true) /\
    noniso w /\ strongs w /\ Y1 l w [] /\ N1 rtl lo hi M (w ++ tail) /\ (length (w ++ tail) <= B)%nat /\ p_depth p' = d /\ SI (p_store p').

Definition pass1_good (n : nat) : Prop := forall l B hd_ pre post pend extra walk short (p : pst) lo hi M body tail,
  p_stack p = hd_ ++ pre ++ post -> p_sp p = length (hd_ ++ pre) -> reading p pend extra ->
  post ++ pend = body ++ tail -> bal body -> ending tail -> open_end hd_ ->
  N1 rtl lo hi M (pre ++ post ++ pend) -> Y1 l pre body -> noniso pre -> strongs pre ->
  (walk = true -> (exists s t, post = s :: t /\ short = rule_for stored [clz s]) /\ no_long (post ++ pend) /\ ((3 <= length post)%nat \/ pend = [])) ->
  room p post pend -> SI (p_store p) -> (1 <= p_depth p)%nat ->
  (length (pre ++ post ++ pend) <= B)%nat ->
  (fuel B (pre ++ post ++ pend) (post ++ pend) walk < n)%nat ->
  exists p', pass1_loop n (length hd_) walk short p = Ok (negb (past tail =? 0)%nat, p') /\ left1 l B lo hi M hd_ tail extra (p_depth p) p'.

Lemma wt1_ge s : (1 <= wt1 s)%nat.
Proof. unfold wt1. destruct (weak _); lia. Qed.
Lemma base_class w : Forall basen1 w -> Forall (fun s => is_class (clz s)) w.
Proof. apply Forall_impl. intros s ((H & _) & _). exact H. Qed.

Lemma first_of p tail : ending (p :: tail) -> clz p = cPDI.
Proof. intros [X|(q & v & E & C)]; [discriminate|]. injection E as -> _. exact C. Qed.

(* An isolate, from its initiator to its PDI. *)
Lemma irs_nested n : pass1_good n -> forall l' (B : nat) u i t pend extra (p : pst) lo hi M pre b pdi v,
  p_stack p = u ++ i :: t -> reading p pend extra -> t ++ pend = b ++ pdi :: v -> bal b -> clz pdi = cPDI -> isinit i = true ->
  N1 rtl lo hi M (pre ++ i :: t ++ pend) -> Y1 l' [] b -> open_end u -> room p (i :: t) pend -> SI (p_store p) -> (1 <= p_depth p)%nat ->
  (length (i :: t ++ pend) <= B)%nat -> (fuel B (t ++ pend) (t ++ pend) false < n)%nat ->
  exists p' w post' pend', parseIRS (S n) (length u) p = Ok ([isolated i w pdi], length (i :: w ++ [pdi]), true, p') /\
    p_stack p' = u ++ (i :: w ++ [pdi]) ++ post' /\ post' ++ pend' = v /\ reading p' pend' extra /\ room p' post' pend' /\
    p_depth p' = p_depth p /\ SI (p_store p') /\ N1 rtl lo hi M (pre ++ isolated i w pdi :: v) /\
    (exists lo' hi' M', N2i rtl i lo' hi' M' (i :: w)) /\ Y2 l' i (i :: w) [].
Proof.
  intros IH l' B u i t pend extra p lo hi M pre b pdi v ES R EB BB PP II GG YY OE RM SS DD LB FU.
  rewrite parseIRS_eq. cbv zeta. unfold with_depth, with_sp. cbn [p_stack p_sp p_eof p_pipe p_depth p_store].
  destruct RM as (RM1 & RM2 & RM3).
  assert (EE : p_eof p = false).
  { destruct (p_eof p); [|reflexivity]. specialize (RM3 eq_refl). rewrite <- app_comm_cons, inits_cons, II in RM3. discriminate. }
  set (p0 := mkp (p_stack p) (S (length u)) (p_eof p) (p_pipe p) (S (p_depth p)) (p_store p)).
  assert (R0 : reading p0 pend extra) by exact R.
  destruct (read_loop_spec 3 p0 pend extra R0 EE) as (k & p1 & E1 & S1 & P1 & D1 & B1 & R1 & _).
  pose proof (read_loop_eof 3 p0 pend extra R0 EE) as EF. rewrite E1 in EF. cbn [snd] in EF.
  unfold read. replace (p_eof p0) with false by (symmetry; exact EE). cbn [Nat.eqb orb]. rewrite E1.
  set (ex := firstn 3 pend) in *. set (pe := skipn 3 pend) in *.
  assert (EX : pend = ex ++ pe) by (symmetry; apply firstn_skipn).
  assert (LEX : (length ex <= 3)%nat) by (unfold ex; rewrite firstn_length; lia).
  assert (LPE : length pe = (length pend - 3)%nat) by (unfold pe; rewrite skipn_length; lia).
  cbn [room1 room2 app] in RM1, RM2. rewrite II in RM1, RM2. destruct RM1 as [_ RM1]. destruct RM2 as [_ RM2].
  assert (RMa : room1 0 ((t ++ ex) ++ pe)) by (rewrite <- app_assoc, <- EX; revert RM1; apply room1_le; lia).
  assert (RM : room p1 (t ++ ex) pe).
  { split; [exact RMa|]. split.
    - apply room2_app. split; [rewrite LPE; apply room2_down; exact RM2|]. apply room12; auto.
      rewrite <- app_assoc in RMa. apply room1_app in RMa. exact RMa.
    - intros X. destruct (Nat.le_gt_cases 3 (length pend)) as [Y|Y]; [rewrite EF in X by exact Y; discriminate|].
      rewrite <- app_assoc, <- EX, inits_app, (room2_short _ _ _ Y RM2). cbn [Nat.add].
      apply (room1_short _ (1 + inits t)); [exact Y|]. apply room1_app. exact RM1. }
  pose proof (N1_tail _ _ _ _ _ _ _ GG) as G1.
  assert (BI : basen1 i) by (destruct GG as (F & _); rewrite Forall_forall in F; apply F; apply in_or_app; right; left; reflexivity).
  assert (LI : sl i <= sr i) by (destruct GG as (_ & _ & T & _); apply tiles_app in T; destruct T as (z & _ & T); cbn [tiles app] in T; destruct T as (-> & T & _); exact T).
  assert (OI : rtl = false -> only_l i).
  { intros X. destruct GG as (_ & _ & _ & N & _). unfold numbers1 in N. rewrite X in N. rewrite Forall_forall in N. apply N. apply in_or_app. right. left. reflexivity. }
  assert (IP : clz i <> cPDI) by (apply init_iso in II; tauto).
  assert (SPL : length (u ++ [i]) = S (length u)) by (rewrite app_length; cbn; lia).
  destruct (IH l' B (u ++ [i]) [] (t ++ ex) pe extra false None p1 (sr i) hi (marks (t ++ pend)) b (pdi :: v)) as (p2 & E2 & L1).
  { rewrite S1. cbn [p0 p_stack]. rewrite ES, <- !app_assoc. reflexivity. }
  { rewrite P1, app_nil_r, SPL. reflexivity. }
  { exact R1. }
  { rewrite <- app_assoc, <- EX. exact EB. }
  { exact BB. }
  { right. eauto. }
  { right. eauto. }
  { cbn [app]. rewrite <- app_assoc, <- EX. exact G1. }
  { exact YY. }
  { constructor. }
  { constructor. }
  { discriminate. }
  { exact RM. }
  { rewrite B1. exact SS. }
  { rewrite D1. cbn. lia. }
  { cbn [app]. rewrite <- app_assoc, <- EX. cbn [length] in LB. lia. }
  { cbn [app]. rewrite <- app_assoc, <- EX. exact FU. }
  rewrite SPL in E2. rewrite E2. cbn [past Nat.eqb negb rbind orb].
  destruct L1 as (w & post & pe2 & S2 & P2 & EV & R2 & RM' & _ & NW & WW & YW & G2 & LW & D2 & SS2).
  cbn [past firstn skipn app] in S2, P2, EV.
  destruct (N1_prefix _ _ _ _ _ _ G2) as [G2' LP].
  assert (MW : marks w = marks b).
  { destruct G2 as (_ & _ & _ & _ & MM). rewrite EB, !marks_app in MM. exact (app_inv_tail _ _ _ MM). }
  pose proof (N2_start rtl _ _ _ i w G2' WW NW II (proj1 BI) eq_refl LI OI) as G3.
  assert (LV : (length post <= length v)%nat) by (rewrite <- EV, app_length; lia).
  destruct (pass2_nested l' i (sl i) (sl pdi) (smarks i ++ marks w) u (pdi :: post)) with
    (n := n) (B := S B) (pre := @nil scrap) (post := i :: w) (p := mkp (p_stack p2) (length u) (p_eof p2) (p_pipe p2) (p_depth p2) (p_store p2))
    as (p3 & w3 & E3 & G4 & Y4 & L3 & S3 & P3 & F3 & I3 & D3 & SS3).
  { exact OE. }
  { right. eauto. }
  { destruct G2 as (F & _). apply base_class in F. apply Forall_app in F. destruct F as [_ F]. pose proof (Forall_inv F) as F1. pose proof (Forall_inv_tail F) as F2. rewrite <- EV in F2.
    constructor; auto. apply Forall_app in F2. tauto. }
  { cbn. rewrite S2, <- !app_assoc. reflexivity. }
  { cbn. rewrite app_nil_r. reflexivity. }
  { exact G3. }
  { apply (Y12 l' (sr i) (sl pdi) (marks w)); auto. }
  { exact SS2. }
  { rewrite app_length in LW. cbn [app length] in *. lia. }
  { cbn [app]. assert (LIW : (length (i :: w) <= S B)%nat) by (rewrite app_length in LW; cbn [length] in *; lia).
    unfold fuel2, fuel in *. pose proof (weight_le wt2 4 (i :: w) wt2_le) as X.
    revert X LIW FU. generalize (weight wt2 (i :: w)) (length (i :: w)). intros a l X LIW FU.
    assert (a * (S B + 1) <= 4 * (B + 1) * (B + 2))%nat by nia. lia. }
  rewrite E3. cbn [rbind]. rewrite D3. cbn [p_depth]. rewrite D2, D1. cbn [p0 p_depth].
  pose proof G4 as G4'. destruct G4 as ((w' & -> & _ & NW') & FB & T4 & _ & M4).
  cbn [past] in P3.
  assert (RL : (p_sp p3 - length u)%nat = length (i :: w' ++ [pdi])).
  { rewrite P3, !app_length. cbn [length]. rewrite app_length. cbn [length]. lia. }
  rewrite RL. replace (1 <? S (p_depth p))%nat with true by (symmetry; apply Nat.ltb_lt; lia). cbn [andb].
  assert (S3' : p_stack p3 = u ++ (i :: w' ++ [pdi]) ++ post) by (rewrite S3; cbn [app]; rewrite <- app_assoc; reflexivity).
  assert (X1 : nth_error (p_stack p3) (length u) = Some i).
  { rewrite S3', nth_error_app2, Nat.sub_diag by lia. reflexivity. }
  assert (X2 : nth_error (p_stack p3) (length u + length (i :: w' ++ [pdi]) - 1) = Some pdi).
  { rewrite S3. replace (u ++ (i :: w') ++ pdi :: post) with ((u ++ (i :: w')) ++ pdi :: post) by (rewrite <- app_assoc; reflexivity).
    rewrite nth_error_app2; cbn [length]; rewrite !app_length; cbn [length]; [|lia].
    replace (_ - _ - _)%nat with 0%nat by lia. reflexivity. }
  rewrite X1. cbn [lift rbind]. rewrite X2. cbn [lift rbind].
  assert (X3 : firstn (length (i :: w' ++ [pdi])) (skipn (length u) (p_stack p3)) = i :: w' ++ [pdi]).
  { rewrite S3', skipn_app, skipn_all, Nat.sub_diag. cbn [skipn app]. change (i :: (w' ++ [pdi]) ++ post) with ((i :: w' ++ [pdi]) ++ post).
    rewrite firstn_app, firstn_all, Nat.sub_diag, firstn_O. apply app_nil_r. }
  rewrite X3. eexists _, w', post, pe2. split; [reflexivity|]. cbn [p_stack p_depth p_store p_eof p_pipe].
  split; [exact S3'|]. split; [exact EV|].
  assert (RR : forall q : pst, p_eof q = p_eof p2 -> p_pipe q = p_pipe p2 -> reading q pe2 extra /\ room q post pe2).
  { intros q Q1 Q2. unfold reading, room in *. rewrite Q1, Q2. auto. }
  destruct (RR p3 F3 I3) as [RR1 RR2]. split; [exact RR1|]. split; [exact RR2|]. split; [lia|]. split; [exact SS3|].
  assert (T5 : tiles (sl i) (i :: w' ++ [pdi]) (sr pdi)).
  { rewrite app_comm_cons. apply tiles_app. exists (sl pdi). split; [exact T4|]. cbn. lia. }
  pose proof (Forall_inv_tail FB) as FB2. split; [|split; [eauto|exact Y4]].
  apply (N1_iso rtl lo hi M pre i b pdi v w'); auto.
  - rewrite EB in GG. exact GG.
  - rewrite Forall_forall in *. intros s I. destruct (FB2 s I) as ((A1 & A2 & _) & A3 & A4). split; auto.
  - rewrite Forall_forall in *. intros s I. destruct (FB2 s I) as ((A1 & A2 & _) & A3 & A4). exact A2.
  - rewrite marks_cons in M4. apply app_inv_head in M4. rewrite M4. exact MW.
Qed.

Lemma pass1_eq n startIRS walk short (p : pst) : pass1_loop (S n) startIRS walk short p =
      let p := fill p in
      if (length (p_stack p) =? p_sp p)%nat then (if p_eof p then Ok (false, p) else Panic)
      else if walk then
        match (match short with Some r => if 1 <? pass r then None else Some r | None => None end) with
        | None =>
            let* s := lift (nth_error (p_stack p) (p_sp p)) in
            if clz s =? cPDI then Ok (true, with_sp p (S (p_sp p)))
            else if isisolate s then
              let start := p_sp p in
              let* (rhs, runlen, ok, p) := parseIRS n start p in
              let p := with_sp p start in
              if ok then
                let* p := lift (reduce p runlen rhs startIRS) in
                pass1_loop n startIRS false None p
              else if (runlen =? 0)%nat then Panic
              else
                let* rhs := match rhs with x :: t => Ok (with_clz x cNI :: t) | [] => Panic end in
                let* p := lift (reduce p runlen rhs startIRS) in
                pass1_loop n startIRS false None (with_sp p (jump startIRS (p_sp p) (-2)))
            else pass1_loop n startIRS false None (with_sp p (S (p_sp p)))
        | Some r => let* p := Resolver.apply_rule p r startIRS startIRS in pass1_loop n startIRS false None p
        end
      else
        let* (rule, short) := match_at the_trie the_tab p 0 in
        match (match rule with Some r => if 1 <? pass r then None else Some r | None => None end) with
        | None => pass1_loop n startIRS true short p
        | Some r => let* p := Resolver.apply_rule p r startIRS startIRS in pass1_loop n startIRS false None p
        end.
Proof. reflexivity. Qed.

Theorem pass1_nested : forall n, pass1_good n.
Proof.
  induction n as [n IHn] using lt_wf_ind. intros l B hd_ pre post pend extra walk short p lo hi M body tail ES EP R EB BB TE OE GG YY NP CL WK RM SS DD LB FU.
  destruct n as [|n]; [lia|].
  rewrite pass1_eq. cbv zeta. rewrite app_assoc in ES.
  destruct (fill_room p (hd_ ++ pre) post pend extra ES EP R RM) as (ex & pend' & -> & ES' & EP' & R' & D' & S' & EO & EX & LA & RM').
  set (q := fill p) in *. clearbody q.
  rewrite (app_assoc post ex pend') in GG, FU, LB, EB. set (po := post ++ ex) in *. rewrite <- S' in SS. rewrite <- D' in DD.
  rewrite <- D'. clear D' S'.
  rewrite EP', ES'. destruct po as [|s t] eqn:EPO.
  - (* at the end *)
    rewrite app_nil_r, Nat.eqb_refl. rewrite (EO eq_refl). pose proof R' as [_ RE].
    rewrite (EO eq_refl) in RE. destruct RE as [-> RE]. cbn [app] in *. symmetry in EB. apply app_eq_nil in EB. destruct EB as [-> ->].
    exists q. split; [reflexivity|]. exists pre, [], []. cbn [past firstn skipn app]. rewrite app_nil_r in *.
    rewrite ES', EP'. split; [reflexivity|]. split; [lia|]. do 12 (split; auto).
  - assert (NL : (length ((hd_ ++ pre) ++ s :: t) =? length (hd_ ++ pre))%nat = false).
    { apply Nat.eqb_neq. rewrite (app_length (hd_ ++ pre)). cbn [length]. lia. }
    rewrite NL. pose proof GG as (PL & _).
    assert (PLP : Forall basen1 (s :: t)).
    { apply Forall_app in PL. destruct PL as [_ PL]. apply Forall_app in PL. tauto. }
    pose proof (Forall_inv PLP) as ((PC & _) & PE).
    (* going on *)
    assert (NEXT : forall pre2 post2 pend2 (p2 : pst) body2, p_stack p2 = hd_ ++ pre2 ++ post2 -> p_sp p2 = length (hd_ ++ pre2) -> reading p2 pend2 extra ->
      post2 ++ pend2 = body2 ++ tail -> bal body2 -> N1 rtl lo hi M (pre2 ++ post2 ++ pend2) -> Y1 l pre2 body2 -> noniso pre2 -> strongs pre2 ->
      room p2 post2 pend2 -> SI (p_store p2) -> p_depth p2 = p_depth q -> (length (pre2 ++ post2 ++ pend2) <= B)%nat ->
      (weight wt1 (pre2 ++ post2 ++ pend2) < weight wt1 (pre ++ (s :: t) ++ pend'))%nat ->
      exists p', pass1_loop n (length hd_) false None p2 = Ok (negb (past tail =? 0)%nat, p') /\ left1 l B lo hi M hd_ tail extra (p_depth q) p').
    { intros pre2 post2 pend2 p2 body2 Q1 Q2 Q3 Q4 Q5 Q6 QY Q7 Q8 Q9 Q10 Q11 Q12 WT. rewrite <- Q11.
      apply (IHn n ltac:(lia) l B hd_ pre2 post2 pend2 extra false None p2 lo hi M body2 tail); auto; try discriminate; [lia|].
      assert (LQ : (length (post2 ++ pend2) <= B)%nat) by (rewrite app_length in Q12; lia).
      unfold fuel in *. revert WT FU LQ. generalize (weight wt1 (pre2 ++ post2 ++ pend2)) (weight wt1 (pre ++ (s :: t) ++ pend')) (length (post2 ++ pend2)).
      intros a b k WT FU LQ. assert (a * (2 * B + 2) + (2 * B + 2) <= b * (2 * B + 2))%nat by nia. lia. }
    (* applying a rule of this pass *)
    assert (RULE : forall r, In r stored -> (if 1 <? pass r then None else Some r) = Some r ->
      (exists m v, s :: t = m ++ v /\ map clz m = lhs r) -> (lhsLen r = 1%nat -> no_long ((s :: t) ++ pend')) ->
      exists p', (let* p0 := Resolver.apply_rule q r (length hd_) (length hd_) in pass1_loop n (length hd_) false None p0) = Ok (negb (past tail =? 0)%nat, p') /\
        left1 l B lo hi M hd_ tail extra (p_depth q) p').
    { intros r I PR (m & v & EM & ML) NLG. assert (P1 : pass r = 1) by (destruct r; cbn in PR |- *; try discriminate PR; reflexivity).
      destruct (weight_rule1 r m I P1 ML) as (WL & L1 & LR).
      assert (NM : m <> []) by (destruct m; [cbn in L1; lia|discriminate]).
      pose proof (lhs_noniso r m I ML) as NIM.
      destruct (action1 r m v I P1 ML) as (nl & AC).
      { intros ->. cbn [lhs] in ML. inv_map. injection EM as <- _. cbn [hd]. auto. }
      assert (ESm : p_stack q = (hd_ ++ pre) ++ m ++ v) by (rewrite ES', EM; reflexivity).
      rewrite (apply_meld q r (hd_ ++ pre) m v _ _ nl (length hd_) (length hd_) ESm EP' NM LR) by (try exact AC; rewrite app_length; lia).
      cbn [rbind]. set (jmp := - Z.of_nat (back r)) in *.
      set (k := (jump (length hd_) (length (hd_ ++ pre)) jmp - length hd_)%nat).
      assert (KL : (jump (length hd_) (length (hd_ ++ pre)) jmp = length hd_ + k)%nat /\ (k = length pre - back r)%nat).
      { unfold k, jump, jmp. rewrite app_length. lia. }
      destruct KL as [KJ KB]. rewrite KJ. assert (KL : (k <= length pre)%nat) by lia.
      assert (EPRE : pre = firstn k pre ++ skipn k pre) by (symmetry; apply firstn_skipn).
      assert (NPS : noniso (firstn k pre) /\ noniso (skipn k pre)) by (rewrite EPRE in NP; apply Forall_app in NP; exact NP).
      destruct NPS as [NP1 NP2].
      rewrite EM, <- app_assoc in EB. destruct (inside _ _ _ _ EB BB TE NIM) as (body' & -> & EB' & BB').
      rewrite EM, <- (app_assoc m v pend') in GG. pose proof GG as GGm. destruct (N1_rw rtl lo hi M pre m (v ++ pend') r GG I P1 ML) as [GW XI].
      set (x := merge (target1 r) m) in *.
      assert (EW : firstn k pre ++ (skipn k pre ++ x :: v) ++ pend' = pre ++ x :: v ++ pend').
      { rewrite <- !app_assoc, (app_assoc (firstn k pre)), firstn_skipn. reflexivity. }
      assert (WT : (weight wt1 (pre ++ x :: v ++ pend') < weight wt1 (pre ++ (s :: t) ++ pend'))%nat).
      { rewrite EM, !weight_app. change (weight wt1 (x :: v ++ pend')) with (wt1 x + weight wt1 (v ++ pend'))%nat.
        rewrite weight_app. lia. }
      assert (LT : (length (pre ++ x :: v ++ pend') <= length (pre ++ (s :: t) ++ pend'))%nat).
      { rewrite EM, !app_length. cbn [length]. rewrite !app_length. lia. }
      apply (NEXT (firstn k pre) (skipn k pre ++ x :: v) pend' _ (skipn k pre ++ x :: body')); cbn [with_sp with_stack p_stack p_sp p_depth p_store]; auto.
      - rewrite (app_assoc (firstn k pre)), firstn_skipn, app_assoc. reflexivity.
      - rewrite app_length, firstn_length. lia.
      - rewrite <- !app_assoc. cbn [app]. rewrite EB'. reflexivity.
      - apply bal_pre; auto. apply bal_plain; auto.
      - rewrite EW. exact GW.
      - rewrite EB' in GGm. rewrite !app_assoc, <- (app_assoc pre) in GGm. destruct (N1_body _ _ _ _ _ GGm TE) as (hi' & M' & GB).
        unfold x. rewrite KB. apply (Y1_rw l lo hi' M'); auto. intros X. specialize (NLG X).
        rewrite EM, <- app_assoc, EB', app_assoc in NLG. exact (no_long_prefix _ _ NLG).
      - rewrite EPRE in CL. apply Forall_app in CL. tauto.
      - destruct RM' as (RA & RB & RC). rewrite EM, <- app_assoc in RA. apply room1_app in RA. rewrite (noniso_inits _ NIM) in RA.
        rewrite EM in RB. apply room2_app in RB. destruct RB as [_ RB]. rewrite (noniso_inits _ NIM) in RB.
        pose proof (noniso_init _ XI) as XN. split; [|split].
        + rewrite <- app_assoc. apply room1_plain; [apply noniso_inits; auto|]. cbn [app room1]. rewrite XN. split; [discriminate|exact RA].
        + apply room2_app. rewrite (noniso_inits _ NP2). split; [apply room2_plain, noniso_inits; auto|]. cbn [room2]. rewrite XN. split; [discriminate|exact RB].
        + intros X. specialize (RC X). rewrite EM, <- app_assoc, inits_app in RC. rewrite <- app_assoc, inits_app, (noniso_inits _ NP2). cbn [app].
          rewrite inits_cons, XN. lia.
      - rewrite EW. lia.
      - rewrite EW. exact WT. }
    destruct walk.
    + destruct (WK eq_refl) as ((s' & t' & EPO' & ESH) & NLW & LB3). assert (EX0 : ex = []).
      { apply EX. destruct LB3 as [X|X]; auto. }
      subst post ex. unfold po in EPO. rewrite app_nil_r in EPO. injection EPO as <- EPO.
      destruct (match short with Some r => if 1 <? pass r then None else Some r | None => None end) as [r|] eqn:SH.
      * assert (SR : short = Some r /\ (if 1 <? pass r then None else Some r) = Some r).
        { destruct short as [r'|]; [|discriminate]. destruct (1 <? pass r') eqn:PP; [discriminate|]. injection SH as ->. rewrite PP. auto. }
        destruct SR as [SR1 SR2]. rewrite SR1 in ESH.
        destruct (short_found (s' :: t) r) as [I SP]; [cbn; auto|].
        apply RULE; auto. intros _. rewrite <- EPO. exact NLW.
      * (* walk *)
        assert (NWk : weak (clz s') = false) by (apply not_weak; [exact PC|rewrite <- ESH; exact SH]).
        assert (NT : nth_error ((hd_ ++ pre) ++ s' :: t) (length (hd_ ++ pre)) = Some s').
        { rewrite nth_error_app2, Nat.sub_diag by lia. reflexivity. }
        rewrite NT. cbn [lift rbind].
        destruct (Z.eqb_spec (clz s') cPDI) as [PD|PD].
        { (* the end of the isolate *)
          destruct body as [|y body].
          2:{ exfalso. cbn [app] in EB. injection EB as <- _. apply bal_inv in BB. apply pdi_iso in PD. destruct PD as [P1 P2].
              destruct BB as [[X _]|[X _]]; congruence. }
          cbn [app] in EB. subst tail. cbn [past Nat.eqb negb]. eexists. split; [reflexivity|].
          exists pre, t, pend'. cbn [past firstn skipn app with_sp p_stack p_sp p_depth p_store p_eof].
          rewrite ES', <- app_assoc. split; [reflexivity|]. split; [lia|]. split; [reflexivity|]. split; [exact R'|].
          split; [|split; [discriminate|]]; [|do 6 (split; auto)].
          destruct RM' as (RA & RB & RC). apply pdi_iso in PD. destruct PD as [_ PD]. cbn [app room1 room2] in RA, RB. rewrite PD in RA, RB.
          split; [tauto|]. split; [tauto|]. intros X. specialize (RC X). cbn [app] in RC. rewrite inits_cons, PD in RC. exact RC. }
        destruct (isisolate s') eqn:PI.
        { (* an isolate *)
          assert (II : isinit s' = true) by (unfold isinit; rewrite PI; apply Z.eqb_neq in PD; rewrite PD; reflexivity).
          destruct body as [|y body].
          { exfalso. cbn [app] in EB. subst tail. apply first_of in TE. congruence. }
          cbn [app] in EB. injection EB as <- EB. apply bal_inv in BB. destruct BB as [[X _]|[_ (b & pdi & v & -> & BB1 & PP & BB2)]]; [congruence|].
          rewrite <- app_assoc in EB. cbn [app] in EB.
          cbn [app] in GG, LB, FU.
          pose proof (wt1_ge s') as WS.
          assert (WC : weight wt1 (s' :: t ++ pend') = (wt1 s' + weight wt1 (t ++ pend'))%nat) by reflexivity.
          destruct n as [|n]; [unfold fuel in FU; lia|].
          assert (GB : exists hi' M', N1 rtl lo hi' M' (pre ++ s' :: b ++ pdi :: v)).
          { rewrite EB in GG. replace (pre ++ s' :: b ++ pdi :: v ++ tail) with ((pre ++ s' :: b ++ pdi :: v) ++ tail) in GG
              by (rewrite <- app_assoc; cbn [app]; rewrite <- app_assoc; reflexivity).
            exact (N1_body _ _ _ _ _ GG TE). }
          destruct GB as (hiB & MB & GB).
          destruct (Y1_iso l lo hiB MB pre s' b pdi v) as (l' & YL1 & YL2); auto.
          destruct (irs_nested n (IHn n ltac:(lia)) l' B (hd_ ++ pre) s' t pend' extra q lo hi M pre b pdi (v ++ tail))
            as (p3 & w & post3 & pend3 & E3 & S3 & EV & R3 & RM3 & D3 & SS3 & GN & (lo' & hi' & M' & GN2) & YN2); auto.
          - apply open_app; auto. clear - NP. eapply Forall_impl; [|exact NP]. cbn. intros a H X. apply pdi_iso in X. destruct X. congruence.
          - rewrite app_length in LB. lia.
          - unfold fuel in *. cbn [length] in FU. rewrite weight_app, WC in FU. revert FU.
            generalize (4 * (B + 1) * (B + 2) + B + 4)%nat (weight wt1 pre) (weight wt1 (t ++ pend')) (length (t ++ pend')). intros c a d k FU.
            assert (d * (2 * B + 2) + (2 * B + 2) <= (a + (wt1 s' + d)) * (2 * B + 2))%nat by nia. lia.
          - rewrite E3. cbn [rbind]. 
            rewrite (reduce_meld (with_sp p3 (length (hd_ ++ pre))) (hd_ ++ pre) (s' :: w ++ [pdi]) post3 (isolated s' w pdi) (length hd_));
              [|exact S3|reflexivity|discriminate|rewrite app_length; lia].
            cbn [lift rbind].
            assert (NIX : isisolate (isolated s' w pdi) = false) by reflexivity.
            apply (NEXT pre (isolated s' w pdi :: post3) pend3 _ (isolated s' w pdi :: v)); cbn [with_sp with_stack p_stack p_sp p_depth p_store]; auto.
            + rewrite <- app_assoc. reflexivity.
            + cbn [app]. rewrite EV. reflexivity.
            + apply bal_plain; auto.
            + cbn [app]. rewrite EV. exact GN.
            + eapply YL2; eauto.
            + destruct RM3 as (RA & RB & RC). apply noniso_init in NIX. split; [|split].
              * cbn [app room1]. rewrite NIX. split; [discriminate|exact RA].
              * cbn [room2]. rewrite NIX. split; [discriminate|exact RB].
              * intros X. cbn [app]. rewrite inits_cons, NIX. apply RC. exact X.
            + cbn [app]. rewrite EV. rewrite EB in LB. rewrite !app_length in *. cbn [length] in *. rewrite !app_length in *. cbn [length] in *. rewrite !app_length in *. lia.
            + cbn [app]. rewrite EV, EB. rewrite !(weight_app _ pre).
              change (weight wt1 (isolated s' w pdi :: v ++ tail)) with (1 + weight wt1 (v ++ tail))%nat.
              change (weight wt1 (s' :: b ++ pdi :: v ++ tail)) with (wt1 s' + weight wt1 (b ++ pdi :: v ++ tail))%nat.
              rewrite (weight_app _ b). change (weight wt1 (pdi :: v ++ tail)) with (wt1 pdi + weight wt1 (v ++ tail))%nat.
              pose proof (wt1_ge pdi). lia. }
        { (* any other *)
          destruct body as [|y body].
          { exfalso. cbn [app] in EB. subst tail. apply first_of in TE. congruence. }
          cbn [app] in EB. injection EB as <- EB. apply bal_inv in BB. destruct BB as [[_ BB]|[X _]]; [|apply init_iso in X; destruct X; congruence].
          apply (IHn n ltac:(lia) l B hd_ (pre ++ [s']) t pend' extra false None (with_sp q (S (length (hd_ ++ pre)))) lo hi M body tail); auto.
          -- cbn. rewrite ES', <- !app_assoc. reflexivity.
          -- cbn. rewrite !app_length. cbn. lia.
          -- rewrite <- app_assoc. exact GG.
          -- cbn [app] in GG, NLW. rewrite EPO in NLW. rewrite EB in GG, NLW. rewrite app_comm_cons in NLW. apply no_long_prefix in NLW.
             rewrite app_comm_cons, app_assoc in GG. destruct (N1_body _ _ _ _ _ GG TE) as (hi' & M' & GB). apply (Y1_step l lo hi' M'); auto.
          -- apply Forall_app. split; auto.
          -- apply Forall_app. split; auto.
          -- discriminate.
          -- destruct RM' as (RA & RB & RC). pose proof (noniso_init _ PI) as PN. cbn [app room1 room2] in RA, RB. rewrite PN in RA, RB.
             split; [tauto|]. split; [tauto|]. intros X. specialize (RC X). cbn [app] in RC. rewrite inits_cons, PN in RC. exact RC.
          -- rewrite <- app_assoc. exact LB.
          -- unfold fuel in *. rewrite <- app_assoc. cbn [app length] in *. lia. }
    + rewrite (match_spec_at q (hd_ ++ pre) (s :: t)) by (auto using base_class; lia). cbn [rbind].
      destruct (match long_rule stored (map clz (s :: t)) with Some r => if 1 <? pass r then None else Some r | None => None end) as [r|] eqn:LO.
      * assert (SR : long_rule stored (map clz (s :: t)) = Some r /\ (if 1 <? pass r then None else Some r) = Some r).
        { destruct (long_rule stored (map clz (s :: t))) as [r'|]; [|discriminate].
          destruct (1 <? pass r') eqn:PP; [discriminate|]. injection LO as ->. rewrite PP. auto. }
        destruct SR as [SR1 SR2]. destruct (long_found _ _ SR1) as [I SP]. apply RULE; auto.
        intros X. exfalso. apply find_some in SR1. destruct SR1 as [_ SR1]. apply andb_true_iff in SR1. destruct SR1 as [SR1 _]. apply Nat.leb_le in SR1. lia.
      * apply (IHn n ltac:(lia) l B hd_ pre (s :: t) pend' extra true (rule_for stored (firstn 1 (map clz (s :: t)))) q lo hi M body tail); auto.
        -- rewrite ES', <- app_assoc. reflexivity.
        -- intros _. split; [exists s, t; auto|]. split; [apply no_long_found; auto|exact LA].
        -- unfold fuel in *. lia.
Qed.

(* ---- resolving ---- *)
Context (md : mode) (tot : Z).

(* The result: the scraps tile the text, between an opening and a closing isolate of length zero; the
   children of each tile the isolates of its part of the text; no isolate character is lost, doubled or moved. *)
Definition resolved_tree (M : list (Z * Z * Z)) (lv : levels) : Prop :=
  lv_emb lv = (if m_r2l md then R2L else L2R) /\ tiles 0 (lv_scraps lv) tot /\
  exists body, lv_scraps lv = initial md :: body ++ [mks cPDI tot tot dc0 []] /\ Forall sane body /\
    Forall (fun s => forest (sl s) (kids s) (sr s)) body /\ marks body = M.

Lemma init_base : base (initial md).
Proof.
  destruct (initial_fields md) as (I1 & I2 & I3 & I4 & I5 & I6 & I7). split; [destruct I7 as [-> | ->]; split; (discriminate || reflexivity)|].
  split; [rewrite I1, I2, I3; constructor; lia|]. split; [auto|]. rewrite I4. unfold outer. destruct (m_r2l md); auto.
Qed.

Theorem resolve_nested_more l ss stp extra (b : store) n : N1 rtl 0 tot (marks ss) ss -> Y1 l [] ss -> bal ss -> room1 0 ss -> (rtl = false -> m_r2l md = false) -> SI b ->
  Forall (fun s => clz s <> cNULL) ss -> clz stp = cNULL -> (rounds (length ss) <= n)%nat ->
  exists lv, ResolveLevels the_trie the_tab findBr changeBr n md (ss ++ stp :: extra) b = Ok (lv, extra) /\ resolved_tree (marks ss) lv /\
    exists w, lv_scraps lv = w ++ [mks cPDI tot tot dc0 []] /\ Y2 l (initial md) w [].
Proof.
  intros GG YY BB RM LR SB NN SN FU. unfold ResolveLevels. fold (initial md). set (i := initial md). unfold rounds in FU.
  destruct n as [|n]; [lia|]. rewrite parseIRS_eq. cbv zeta.
  unfold with_depth, with_sp. cbn [p_stack p_sp p_eof p_pipe p_depth p_store].
  set (p0 := mkp [i] 1 false (ss ++ stp :: extra) 1 b).
  assert (R0 : reading p0 ss extra) by (split; [exact NN|]; cbn; eauto).
  destruct (read_loop_spec 3 p0 ss extra R0 eq_refl) as (k & p1 & E1 & S1 & P1 & D1 & B1 & R1 & _).
  pose proof (read_loop_eof 3 p0 ss extra R0 eq_refl) as EF. rewrite E1 in EF. cbn [snd] in EF.
  unfold read. cbn [Nat.eqb p_eof p0 orb]. fold p0. rewrite E1.
  set (L := length ss) in *.
  destruct (initial_fields md) as (I1 & I2 & I3 & I4 & I5 & I6 & I7). fold i in I1, I2, I3, I4, I5, I6, I7.
  assert (II : isinit i = true) by (unfold isinit; rewrite I6; destruct I7 as [-> | ->]; reflexivity).
  destruct (pass1_nested n l L [i] [] (firstn 3 ss) (skipn 3 ss) extra false None p1 0 tot (marks ss) ss []) as (p2 & E2 & w & post & pend & S2 & P2 & EV & R2 & _ & EO & NW & WW & YW & G2 & LW & D2 & SS2).
  { rewrite S1. reflexivity. }
  { rewrite P1. reflexivity. }
  { exact R1. }
  { rewrite firstn_skipn, app_nil_r. reflexivity. }
  { exact BB. }
  { left. reflexivity. }
  { right. exists [], i. split; [reflexivity|]. destruct I7 as [-> | ->]; discriminate. }
  { cbn [app]. rewrite firstn_skipn. exact GG. }
  { exact YY. }
  { constructor. }
  { constructor. }
  { discriminate. }
  { split; [rewrite firstn_skipn; exact RM|]. split; [apply room12; [rewrite firstn_length; lia|rewrite firstn_skipn; exact RM]|].
    rewrite firstn_skipn. intros X. apply (room1_short _ 0); auto. fold L. destruct (Nat.lt_ge_cases L 3) as [Y|Y]; [exact Y|].
    rewrite EF in X by exact Y. discriminate. }
  { rewrite B1. exact SB. }
  { rewrite D1. cbn. lia. }
  { cbn [app]. rewrite firstn_skipn. auto. }
  { cbn [app]. rewrite firstn_skipn. unfold fuel. pose proof (weight_le wt1 2 ss wt1_le) as X. fold L in X |- *. nia. }
  change (length [i]) with 1%nat in E2. rewrite E2. cbn [past Nat.eqb negb rbind orb].
  cbn [past firstn skipn app] in S2, P2, EV. apply app_eq_nil in EV. destruct EV as [-> ->]. rewrite !app_nil_r in *.
  rewrite D2, D1. cbn [p_depth p0 Nat.eqb Nat.ltb Nat.leb andb].
  assert (OI : rtl = false -> only_l i).
  { intros X. unfold only_l, dcStrong. rewrite I5, I4. unfold outer. rewrite (LR X).
    split; [destruct I7 as [-> | ->]; discriminate|]. split; [discriminate|reflexivity]. }
  pose proof (N2_start rtl 0 tot (marks ss) i w G2 WW NW II init_base I3 ltac:(rewrite I2, I3; lia) OI) as G3. rewrite I2 in G3.
  destruct (pass2_nested l i 0 tot (smarks i ++ marks ss) [] []) with
    (n := n) (B := S L) (pre := @nil scrap) (post := i :: w) (p := mkp (p_stack p2) 0 (p_eof p2) (p_pipe p2) 1 (p_store p2))
    as (p3 & w3 & E3 & G4 & Y4 & L3 & S3 & P3 & F3 & I3' & D3 & SS3).
  { left. reflexivity. }
  { left. reflexivity. }
  { constructor. }
  { cbn. rewrite S2, app_nil_r. reflexivity. }
  { reflexivity. }
  { exact G3. }
  { apply (Y12 l 0 tot (marks ss)); auto. }
  { exact SS2. }
  { cbn [app length]. lia. }
  { cbn [app]. unfold fuel2. pose proof (weight_le wt2 4 (i :: w) wt2_le) as X. cbn [length] in *. nia. }
  match goal with |- context [Resolver.pass2 _ _ _ _ n 0 ?q] =>
    replace q with (mkp (p_stack p2) 0 (p_eof p2) (p_pipe p2) 1 (p_store p2)) end.
  2:{ rewrite ?D2, ?D1. reflexivity. }
  cbn [length] in E3. rewrite E3. cbn [rbind skipn]. rewrite D3. cbn [p_depth Nat.ltb Nat.leb andb rbind p_pipe p_stack].
  cbn [app] in S3. rewrite app_nil_r in S3.
  destruct G4 as ((w' & -> & _ & NW') & FB & FT & _ & M4).
  assert (ZL : zget (p_stack p3) (zlen (p_stack p3) - 1) = Some (last (p_stack p3) scrap0)).
  { rewrite S3. destruct (exists_last (l := i :: w')) as (u & x & EX); [discriminate|].
    rewrite EX, last_last. apply zget_last_app. }
  rewrite ZL. cbn [lift rbind].
  assert (EL : sr (last (p_stack p3) scrap0) = tot).
  { rewrite S3. destruct (exists_last (l := i :: w')) as (u & x & EX); [discriminate|]. rewrite EX in FT |- *.
    rewrite last_last. apply tiles_app in FT. destruct FT as (j & _ & FT). cbn in FT. tauto. }
  rewrite EL. destruct R2 as [_ R2]. rewrite (EO eq_refl) in R2. destruct R2 as [_ R2].
  eexists. split; [rewrite I3'; cbn [p_pipe]; rewrite R2; reflexivity|].
  unfold resolved_tree. cbn [lv_emb lv_scraps]. split; [split; [unfold i, initial, initialOuterScrap; destruct (m_r2l md); reflexivity|]|].
  - split; [apply tiles_app; exists tot; rewrite S3; split; [exact FT|]; cbn; lia|].
    exists w'. rewrite S3. split; [reflexivity|]. pose proof (Forall_inv_tail FB) as FB2. rewrite Forall_forall in FB2, NW'. split; [|split].
    + apply Forall_forall. intros s I. destruct (FB2 s I) as ((A1 & A2 & _) & A3 & A4). split; auto.
    + apply Forall_forall. intros s I. destruct (FB2 s I) as ((A1 & A2 & _) & A3 & A4). exact A2.
    + rewrite marks_cons in M4. exact (app_inv_head _ _ _ M4).
  - exists (i :: w'). rewrite S3. split; [reflexivity|exact Y4].
Qed.
End Parser.

Theorem resolve_nested {store : Type} (findBr : store -> scrap -> option scrap * store) changeBr (rtl : bool) (SI : store -> Prop)
  (find_ok : forall b s a b', SI b -> findBr b s = (a, b') -> SI b' /\
    (clz s = cBRACKC -> forall o, a = Some o -> K rtl (clz o) \/ clz o = cNI \/ clz o = cBRACKO))
  (change_ok : forall b s, SI b -> K rtl (clz s) \/ clz s = cNI -> SI (changeBr b s)) md tot ss stp extra (b : store) n :
  N1 rtl 0 tot (marks ss) ss -> bal ss -> room1 0 ss -> (rtl = false -> m_r2l md = false) -> SI b ->
  Forall (fun s => clz s <> cNULL) ss -> clz stp = cNULL -> (rounds (length ss) <= n)%nat ->
  exists lv, ResolveLevels the_trie the_tab findBr changeBr n md (ss ++ stp :: extra) b = Ok (lv, extra) /\ resolved_tree md tot (marks ss) lv.
Proof.
  intros. destruct (resolve_nested_more findBr changeBr rtl SI find_ok change_ok (lvl := unit) (fun _ _ _ => True) (fun _ _ _ _ => True)) with
    (md := md) (tot := tot) (ss := ss) (stp := stp) (extra := extra) (b := b) (n := n) (l := tt) as (lv & E & R & _); auto.
  - intros. exists tt. auto.
  - exists lv. auto.
Qed.
