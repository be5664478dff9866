(* Uax9IsoResolve.v -- the two passes of the resolver keep the result of UAX#9 in every isolating run. *)
From Coq Require Import List ZArith Lia Bool.
From Verif Require Import Base Scrap Brackets Trie Rules RuleProofs Reorder ReorderSpec ReorderProofs SplitProofs Scanner ScannerProofs Resolver ResolverProofs ResolverFlat ResolverNested ResolverText Uax9Spec Uax9Proofs Uax9Rewrite Uax9Resolve Uax9IsoSpec.
Import ListNotations.
Open Scope Z_scope.

(* ---- the class of a byte ---- *)
Lemma first_app a b : first (a ++ b) = match first a with Some c => Some c | None => first b end.
Proof. induction a as [|[c|] a IH]; cbn; auto. Qed.
Lemma class_app a b x : class_at (a ++ b) x = match class_at a x with Some c => Some c | None => class_at b x end.
Proof. unfold class_at. rewrite map_app. apply first_app. Qed.
Lemma class_cons s t x : class_at (s :: t) x = match at_byte x s with Some c => Some c | None => class_at t x end.
Proof. unfold class_at. cbn. destruct (at_byte x s); reflexivity. Qed.
Lemma at_byte_eq x s : at_byte x s = if isisolate s then None else if (sl s <=? x) && (x <? sr s)
  then Some (match class_at (List.concat (kids s)) x with Some d => d | None => clz s end) else None.
Proof.
  destruct s as [c l r d ks]. cbn [at_byte isisolate clz sl sr kids]. change (isisolate (mks c l r d ks)) with (is_isolate c).
  destruct (is_isolate c); [reflexivity|]. destruct (_ && _); [|reflexivity]. unfold class_at. rewrite concat_map. rewrite flat_map_concat_map. reflexivity.
Qed.
Lemma at_iso x s : isisolate s = true -> at_byte x s = None.
Proof. intros H. rewrite at_byte_eq, H. reflexivity. Qed.
Lemma at_out x s : x < sl s \/ sr s <= x -> at_byte x s = None.
Proof.
  intros H. rewrite at_byte_eq. destruct (isisolate s); [reflexivity|]. destruct (Z.leb_spec (sl s) x); [|reflexivity]. destruct (Z.ltb_spec x (sr s)); [lia|reflexivity].
Qed.
Lemma tiles_out x : forall w lo hi, tiles lo w hi -> x < lo \/ hi <= x -> class_at w x = None.
Proof.
  induction w as [|s t IH]; intros lo hi T X; [reflexivity|]. destruct T as (T1 & T2 & T3). pose proof (tiles_le _ _ _ T3).
  rewrite class_cons, at_out by lia. apply (IH _ _ T3). lia.
Qed.

Definition hole (k : list scrap) : Z * Z := (sr (hd scrap0 k), sl (last k scrap0)).
Definition holes (w : list scrap) : list (Z * Z) := flat_map (fun s => map hole (kids s)) w.
Definition in_hole (x : Z) (h : Z * Z) : Prop := fst h <= x < snd h.
Lemma hole_eq i w p : hole (i :: w ++ [p]) = (sr i, sl p).
Proof. unfold hole. cbn [hd]. rewrite app_comm_cons, last_last. reflexivity. Qed.

Lemma kid_class i body p x : isinit i = true -> clz p = cPDI -> tiles (sl i) (i :: body ++ [p]) (sr p) ->
  tiles (sr i) body (sl p) /\ class_at (i :: body ++ [p]) x = class_at body x.
Proof.
  intros II PP T. cbn [tiles] in T. destruct T as (_ & _ & T). apply tiles_app in T. destruct T as (k & T1 & T2). cbn in T2. destruct T2 as (T2 & _). subst k.
  split; [exact T1|]. rewrite class_cons, class_app, (at_iso x i) by (apply init_iso, II).
  rewrite class_cons, (at_iso x p) by (apply pdi_iso, PP). cbn. destruct (class_at body x); reflexivity.
Qed.

Section Target.
(* The class every byte should get. *)
Context (G : Z -> Z).

Definition kid_ok (k : list scrap) : Prop := forall x, in_hole x (hole k) -> class_at k x = Some (G x).

Lemma forest_out lo ks hi : forest lo ks hi -> forall x, x < lo \/ hi <= x -> class_at (List.concat ks) x = None.
Proof.
  induction 1 as [lo hi LE|lo hi i body p ks LO II KI PP KP T SA FB FK IH]; intros x X; [reflexivity|]. cbn [List.concat].
  rewrite class_app. pose proof (forest_le _ _ _ FK). pose proof (tiles_le _ _ _ T).
  rewrite (tiles_out x _ _ _ T) by lia. apply IH. lia.
Qed.
Lemma forest_none lo ks hi : forest lo ks hi -> forall x, (forall k, In k ks -> ~ in_hole x (hole k)) -> class_at (List.concat ks) x = None.
Proof.
  induction 1 as [lo hi LE|lo hi i body p ks LO II KI PP KP T SA FB FK IH]; intros x X; [reflexivity|]. cbn [List.concat].
  rewrite class_app. destruct (kid_class i body p x II PP T) as [T1 ->].
  rewrite (tiles_out x _ _ _ T1); [apply IH; intros k I; apply X; right; auto|].
  specialize (X _ (or_introl eq_refl)). rewrite hole_eq in X. unfold in_hole in X. cbn in X. lia.
Qed.
Lemma forest_hole lo ks hi : forest lo ks hi -> forall x k, In k ks -> in_hole x (hole k) -> lo <= x < hi.
Proof.
  induction 1 as [lo hi LE|lo hi i body p ks LO II KI PP KP T SA FB FK IH]; intros x k I X; [destruct I|]. pose proof (forest_le _ _ _ FK).
  pose proof (tiles_le _ _ _ T). destruct I as [<-|I].
  - rewrite hole_eq in X. unfold in_hole in X. cbn in X. cbn [tiles] in T. destruct T as (_ & T2 & T). apply tiles_app in T. destruct T as (j & T1 & T3). cbn in T3. lia.
  - specialize (IH x k I X). lia.
Qed.
Lemma forest_some lo ks hi : forest lo ks hi -> Forall kid_ok ks -> forall x k, In k ks -> in_hole x (hole k) -> class_at (List.concat ks) x = Some (G x).
Proof.
  induction 1 as [lo hi LE|lo hi i body p ks LO II KI PP KP T SA FB FK IH]; intros F x k I X; [destruct I|]. cbn [List.concat].
  inversion F as [|? ? F1 F2]; subst. rewrite class_app. destruct I as [<-|I].
  - rewrite (F1 x X). reflexivity.
  - pose proof (forest_hole _ _ _ FK x k I X).
    pose proof (tiles_le _ _ _ T). rewrite (tiles_out x _ _ _ T) by lia. apply (IH F2 x k); auto.
Qed.
Lemma holes_in : forall w lo hi, tiles lo w hi -> Forall (fun s => forest (sl s) (kids s) (sr s)) w -> forall x h, In h (holes w) -> in_hole x h -> lo <= x < hi.
Proof.
  induction w as [|s t IH]; intros lo hi T F x h I X; [destruct I|]. destruct T as (T1 & T2 & T3). pose proof (tiles_le _ _ _ T3). inversion F as [|? ? F1 F2]; subst.
  cbn [holes flat_map] in I. fold (holes t) in I. apply in_app_or in I. destruct I as [I|I].
  - apply in_map_iff in I. destruct I as (k & <- & I). pose proof (forest_hole _ _ _ F1 x k I X). lia.
  - pose proof (IH _ _ T3 F2 x h I X). lia.
Qed.

(* A byte has the class of the scrap of the level around it, or the one it should have. *)
Lemma class_level : forall w lo hi x, tiles lo w hi -> Forall (fun s => isisolate s = false) w ->
  Forall (fun s => forest (sl s) (kids s) (sr s)) w -> Forall (fun s => Forall kid_ok (kids s)) w -> lo <= x < hi ->
  class_at w x = Some (G x) \/
  class_at w x = nth_error (painted w) (Z.to_nat (x - lo)) /\ forall h, In h (holes w) -> ~ in_hole x h.
Proof.
  induction w as [|s t IH]; intros lo hi x T NI FO KO X; [cbn in T; lia|]. destruct T as (T1 & T2 & T3). pose proof (tiles_le _ _ _ T3).
  inversion NI as [|? ? N1 N2]; subst. inversion FO as [|? ? F1 F2]; subst. inversion KO as [|? ? K1 K2]; subst.
  rewrite class_cons. cbn [painted flat_map holes]. fold (painted t) (holes t).
  destruct (Z_lt_ge_dec x (sr s)) as [LT|GE].
  - rewrite at_byte_eq, N1. assert (B : (sl s <=? x) && (x <? sr s) = true) by (apply andb_true_iff; split; [apply Z.leb_le|apply Z.ltb_lt]; lia). rewrite B.
    assert (D : (exists k, In k (kids s) /\ in_hole x (hole k)) \/ forall k, In k (kids s) -> ~ in_hole x (hole k)).
    { clear. induction (kids s) as [|k l IH]; [right; intros ? []|]. destruct IH as [(k' & I & H)|N]; [left; exists k'; split; [right; auto|auto]|].
      destruct (Z_le_dec (fst (hole k)) x) as [A|A]; [destruct (Z_lt_dec x (snd (hole k))) as [B|B]|].
      - left. exists k. split; [left; auto|]. split; auto.
      - right. intros k' [<-|I]; [unfold in_hole; lia|auto].
      - right. intros k' [<-|I]; [unfold in_hole; lia|auto]. }
    destruct D as [(k & I & H0)|N].
    + left. rewrite (forest_some _ _ _ F1 K1 x k I H0). reflexivity.
    + right. rewrite (forest_none _ _ _ F1 x N). split.
      * rewrite nth_error_app1 by (rewrite repeat_length; lia). symmetry. apply nth_error_repeat. lia.
      * intros h I. apply in_app_or in I. destruct I as [I|I]; [apply in_map_iff in I; destruct I as (k & <- & I); auto|].
        intros H0. pose proof (holes_in _ _ _ T3 F2 x h I H0). lia.
  - rewrite at_out by lia. destruct (IH _ _ x T3 N2 F2 K2 ltac:(lia)) as [A|[A B]]; [left; exact A|right]. split.
    + rewrite A. rewrite nth_error_app2 by (rewrite repeat_length; lia). rewrite repeat_length. f_equal. lia.
    + intros h I. apply in_app_or in I. destruct I as [I|I]; [|auto]. apply in_map_iff in I. destruct I as (k & <- & I). intros H0.
      pose proof (forest_hole _ _ _ F1 x k I H0). lia.
Qed.

(* What a level should get, except in the isolates. *)
Definition good (lo : Z) (T : list Z) (hs : list (Z * Z)) : Prop :=
  forall k c, nth_error T k = Some c -> (exists h, In h hs /\ in_hole (lo + Z.of_nat k) h) \/ G (lo + Z.of_nat k) = c.

Lemma level_end w lo hi : tiles lo w hi -> Forall (fun s => isisolate s = false) w ->
  Forall (fun s => forest (sl s) (kids s) (sr s)) w -> Forall (fun s => Forall kid_ok (kids s)) w -> good lo (painted w) (holes w) ->
  forall x, lo <= x < hi -> class_at w x = Some (G x).
Proof.
  intros T NI FO KO GO x X. destruct (class_level w lo hi x T NI FO KO X) as [A|[A B]]; [exact A|]. rewrite A.
  assert (LP : length (painted w) = Z.to_nat (hi - lo)).
  { clear - T. revert lo T. induction w as [|s t IH]; intros lo T; [cbn in T |- *; lia|]. destruct T as (T1 & T2 & T3). pose proof (tiles_le _ _ _ T3).
    cbn [painted flat_map]. fold (painted t). rewrite app_length, repeat_length, (IH _ T3). lia. }
  destruct (nth_error (painted w) (Z.to_nat (x - lo))) as [c|] eqn:E; [|apply nth_error_None in E; lia].
  destruct (GO _ _ E) as [(h & I & H0)|<-]; rewrite Z2Nat.id in * by lia; replace (lo + (x - lo)) with x in * by lia; [|reflexivity].
  elim (B h I H0).
Qed.

(* ---- levels ---- *)
Definition plain (e : Z) (s : scrap) : Prop := isisolate s = false /\ edir (sctx s) = e /\ In (clz s) run9 /\ Forall kid_ok (kids s).

(* The runs of a level; an isolate is a run of its own, of class LRI, and occurs in levels of direction L. *)
Inductive views : Z -> list scrap -> list (Z * nat) -> list (Z * Z) -> Prop :=
| views_nil e : views e [] [] []
| views_plain e s t vs hs : plain e s -> views e t vs hs -> views e (s :: t) (view s :: vs) (map hole (kids s) ++ hs)
| views_iso i b p t vs hs e' vs' hs' : isinit i = true -> clz p = cPDI -> e' = cL \/ e' = cR -> views e' b vs' hs' ->
    chk e' false e' false 1 (cls vs') = true -> good (sr i) (fcP e' false e' vs') hs' -> views cL t vs hs ->
    views cL (i :: b ++ p :: t) ((cLRI, Z.to_nat (sr p - sl i)) :: vs) ((sr i, sl p) :: hs).

Lemma views_bal e w vs hs : views e w vs hs -> bal w.
Proof. induction 1 as [e|e s t vs hs (P & _) _ IH|i b p t vs hs e' vs' hs' II PP E' V IH1 C GO V2 IH2]; [constructor|apply bal_plain; auto|apply bal_iso; auto]. Qed.

Lemma views_pre e : forall a b vs hs, Forall (fun s => isisolate s = false) a -> views e (a ++ b) vs hs ->
  exists vb hb, views e b vb hb /\ vs = map view a ++ vb /\ hs = holes a ++ hb /\ Forall (plain e) a.
Proof.
  induction a as [|s a IH]; intros b vs hs F V; [exists vs, hs; auto|]. inversion F as [|? ? F1 F2]; subst. cbn [app] in V.
  inversion V as [|? ? ? vs1 hs1 P V1|? ? ? ? ? ? ? ? ? II]; subst.
  - destruct (IH _ _ _ F2 V1) as (vb & hb & A & -> & -> & D). exists vb, hb. split; auto. split; auto. split; [cbn [holes flat_map]; fold (holes a); rewrite app_assoc; reflexivity|auto].
  - apply init_iso in II. destruct II; congruence.
Qed.
Lemma views_back e : forall a b vb hb, Forall (plain e) a -> views e b vb hb -> views e (a ++ b) (map view a ++ vb) (holes a ++ hb).
Proof.
  induction a as [|s a IH]; intros b vb hb F V; [exact V|]. inversion F as [|? ? F1 F2]; subst. cbn [app map holes flat_map]. fold (holes a).
  rewrite <- app_assoc. apply views_plain; auto.
Qed.

(* The matching PDI is unique. *)
Fixpoint nest (d : nat) (w : list scrap) : option nat :=
  match w with
  | [] => Some d
  | s :: t => if isinit s then nest (S d) t else if clz s =? cPDI then match d with O => None | S d => nest d t end else nest d t
  end.
Lemma nest_app a : forall d b, nest d (a ++ b) = match nest d a with Some d' => nest d' b | None => None end.
Proof.
  induction a as [|s a IH]; intros d b; [reflexivity|]. cbn [app nest]. destruct (isinit s); [apply IH|]. destruct (clz s =? cPDI); [|apply IH].
  destruct d; [reflexivity|apply IH].
Qed.
Lemma bal_nest w : bal w -> forall d, nest d w = Some d.
Proof.
  induction 1 as [|s t N B IH|i b p t II B IH PP B2 IH2]; intros d; [reflexivity| |].
  - cbn [nest]. rewrite (noniso_init _ N). destruct (Z.eqb_spec (clz s) cPDI) as [E|_]; [apply pdi_iso in E; destruct E; congruence|auto].
  - cbn [nest]. rewrite II, nest_app, IH. cbn [nest]. rewrite (proj2 (pdi_iso _ PP)), PP. apply IH2.
Qed.
Lemma bal_unique b p v b' p' v' : bal b -> bal b' -> clz p = cPDI -> clz p' = cPDI -> b ++ p :: v = b' ++ p' :: v' -> b = b' /\ p = p' /\ v = v'.
Proof.
  intros B B' P P' E.
  assert (X : forall a a' q q' u u', nest 0 a = Some 0%nat -> nest 0 a' = Some 0%nat -> clz q = cPDI -> a ++ q :: u = a' ++ q' :: u' -> (length a < length a')%nat -> False).
  { clear. intros a a' q q' u u' N N' Q E L.
    assert (F : exists c, a' = a ++ q :: c).
    { clear N N'. revert a' E L. induction a as [|x a IH]; intros [|y a'] E L; cbn in L; try lia; cbn [app] in E; injection E as <- E.
      - exists a'. reflexivity.
      - destruct (IH a' E ltac:(lia)) as (c & ->). exists c. reflexivity. }
    destruct F as (c & ->). rewrite nest_app, N in N'. cbn [nest] in N'. rewrite (proj2 (pdi_iso _ Q)), Q in N'. discriminate. }
  destruct (lt_eq_lt_dec (length b) (length b')) as [[L|L]|L].
  - exfalso. apply (X b b' p p' v v'); auto using bal_nest.
  - assert (EB : b = b' /\ p :: v = p' :: v').
    { clear - E L. revert b' E L. induction b as [|x b IH]; intros [|y b'] E L; try discriminate L; cbn [app] in E; [auto|].
      injection E as <- E. destruct (IH b' E) as [-> ->]; auto. }
    destruct EB as [-> EB]. injection EB as -> ->. auto.
  - exfalso. apply (X b' b p' p v' v); auto using bal_nest.
Qed.

Lemma views_hd e d t vs hs : views e (d :: t) vs hs -> exists c n vs', vs = (c, n) :: vs' /\ (c = clz d /\ isisolate d = false \/ c = cLRI).
Proof. intros V. inversion V as [|? ? ? vs1 hs1 (P & _) V1|? ? ? ? ? ? ? ? ? II]; subst.
  - exists (clz d), (Z.to_nat (sr d - sl d)), vs1. auto.
  - eexists _, _, _. split; [reflexivity|right; reflexivity].
Qed.

Lemma views_sum e w vs hs : views e w vs hs -> forall lo hi, tiles lo w hi -> list_sum (map snd vs) = Z.to_nat (hi - lo).
Proof.
  induction 1 as [e|e s t vs hs _ _ IH|i b p t vs hs e' vs' hs' II PP E' V IH1 C GO V2 IH2]; intros lo hi T.
  - cbn in T |- *. lia.
  - destruct T as (T1 & T2 & T3). pose proof (tiles_le _ _ _ T3). cbn [map view snd list_sum fold_right]. fold (list_sum (map snd vs)). rewrite (IH _ _ T3). lia.
  - destruct T as (T1 & T2 & T3). apply tiles_app in T3. destruct T3 as (k & T3 & T4 & T5 & T6). pose proof (tiles_le _ _ _ T6). pose proof (tiles_le _ _ _ T3).
    cbn [map snd list_sum fold_right]. fold (list_sum (map snd vs)). rewrite (IH2 _ _ T6). lia.
Qed.
Lemma fcP_length e : forall l q p, length (fcP e q p l) = list_sum (map snd l).
Proof.
  induction l as [|[c n] t IH]; intros q p; [reflexivity|]. cbn [fcP map snd list_sum fold_right]. fold (list_sum (map snd t)).
  destruct (number _ _ _); [|destruct (_ || _)]; rewrite app_length, repeat_length, IH; reflexivity.
Qed.

(* A level: its direction, its first byte, what it should get, its isolates. *)
Record level := mklevel { l_e : Z; l_lo : Z; l_t : list Z; l_h : list (Z * Z) }.
Definition level_ok (l : level) : Prop := (l_e l = cL \/ l_e l = cR) /\ good (l_lo l) (l_t l) (l_h l).

(* ---- pass 1 ---- *)
Definition Y1i (l : level) (pre rest : list scrap) : Prop :=
  level_ok l /\ exists vs, views (l_e l) (pre ++ rest) vs (l_h l) /\
    chk (l_e l) false (l_e l) false (S (length pre)) (cls vs) = true /\ fcP (l_e l) false (l_e l) vs = l_t l.

Notation noniso := (Forall (fun s => isisolate s = false)).
Notation strongs := (Forall (fun s => weak (clz s) = false)).

Lemma plain_done e a : Forall (plain e) a -> strongs a -> Forall (fun s => In (clz s) done9) a.
Proof. intros A B. apply done_all; auto. eapply Forall_impl; [|exact A]. intros s (_ & _ & X & _). exact X. Qed.
Lemma cls_app a b : cls (a ++ b) = cls a ++ cls b.
Proof. apply map_app. Qed.

Lemma holes_merge c m : map hole (kids (merge c m)) = holes m.
Proof. unfold merge, holes. cbn [kids]. induction m as [|s m IH]; [reflexivity|]. cbn [flat_map]. rewrite map_app, IH. reflexivity. Qed.
Lemma kids_merge c m e : Forall (plain e) m -> Forall kid_ok (kids (merge c m)).
Proof. unfold merge. cbn [kids]. induction 1 as [|s m (_ & _ & _ & H) _ IH]; [constructor|]. cbn [flat_map]. apply Forall_app. auto. Qed.

Lemma Y1i_rw l lo hi M a m b r : N1 true lo hi M (a ++ m ++ b) -> Y1i l a (m ++ b) -> In r stored -> pass r = 1 -> map clz m = lhs r ->
  noniso a -> strongs a -> (lhsLen r = 1%nat -> no_long (m ++ b)) ->
  Y1i l (firstn (length a - back r) a) (skipn (length a - back r) a ++ merge (target1 r) m :: b).
Proof.
  intros (_ & LE & T & _) ((ELR & GO) & vs & VW & C & V) I P M0 NA W NL. destruct l as [e l0 target H]. cbn [l_e l_lo l_t l_h] in *.
  assert (NM : m <> []) by (destruct m; [destruct r; discriminate M0|discriminate]).
  pose proof (view_merge (target1 r) a m b _ _ T NM) as VM.
  assert (NIM : noniso m) by (apply (lhs_noniso r); auto).
  destruct (views_pre e a _ _ _ NA VW) as (vs1 & h1 & VW1 & EV & EH & PA). destruct (views_pre e m _ _ _ NIM VW1) as (vb & hb & VB & EV1 & EH1 & PM).
  subst vs vs1 H h1. pose proof (plain_done e a PA W) as DA.
  assert (RUN : In (target1 r) run9).
  { destruct r; try discriminate P; cbn; auto 8. cbn [lhs] in M0. inv_map. exfalso. inversion PM as [|? ? (_ & _ & X & _) _]; subst. rewrite H in X.
    cbn in X. decompose [or] X; try discriminate; contradiction. }
  assert (PX : plain e (merge (target1 r) m)).
  { split; [destruct r; try discriminate P; reflexivity|]. split; [|split; [exact RUN|apply (kids_merge _ _ e PM)]].
    destruct m as [|h m]; [congruence|]. inversion PM as [|? ? (_ & X & _) _]. exact X. }
  unfold Y1i. cbn [l_e l_lo l_t l_h]. split; [split; auto|]. rewrite app_assoc, firstn_skipn.
  exists (map view a ++ view (merge (target1 r) m) :: vb).
  split. { rewrite <- (holes_merge (target1 r) m). apply views_back; auto. apply views_plain; auto. }
  rewrite firstn_length. replace (Nat.min (length a - back r) (length a)) with (length a - back r)%nat by lia.
  (* the general case *)
  assert (GEN : forall k, step_ok e k (map view m ++ vb) (view (merge (target1 r) m) :: vb) ->
    (S (length a - back r) <= length a + k)%nat ->
    chk e false e false (S (length a - back r)) (cls (map view a ++ view (merge (target1 r) m) :: vb)) = true /\
    fcP e false e (map view a ++ view (merge (target1 r) m) :: vb) = target).
  { intros k [S1 S2 S3 S4] K. split.
    - apply (chk_mono e _ _ _ _ (length a + k)%nat); auto. rewrite !cls_app, cls_view. rewrite <- (map_length clz a).
      apply (chk_cong e (map clz a) (cls (map view m ++ vb)) (cls (view (merge (target1 r) m) :: vb)) 1 k); auto.
      + apply Forall_map. exact DA.
      + rewrite map_length. replace (length a + 1)%nat with (S (length a)) by lia. rewrite cls_app, cls_view in C. exact C.
    - rewrite <- V. symmetry. apply fcP_cong; auto. apply Forall_map. exact DA. }
  assert (NL1 : lhsLen r = 1%nat -> hd cNI (cls vb) = cEN -> r <> W6_1).
  { intros L D ->. specialize (NL L). cbn [lhs] in M0. inv_map. destruct b as [|d t]; [inversion VB; subst; discriminate D|].
    destruct (views_hd _ _ _ _ _ VB) as (c & n & vs' & -> & X). cbn [cls map hd fst] in D. destruct X as [[X _]|X]; [|rewrite X in D; discriminate D].
    apply (NL W5_1 [s; d] t); cbn; auto 8; congruence. }
  assert (NL2 : lhsLen r = 1%nat -> hd cNI (cls vb) = cET -> r <> Rules.W7 /\ r <> W6_1).
  { intros L D. specialize (NL L). destruct b as [|d t]; [inversion VB; subst; discriminate D|].
    destruct (views_hd _ _ _ _ _ VB) as (c & n & vs' & -> & X). cbn [cls map hd fst] in D. destruct X as [[X _]|X]; [|rewrite X in D; discriminate D]. split; intros ->; cbn [lhs] in M0; inv_map.
    - apply (NL W5_2 [s; d] t); cbn; auto 8; congruence.
    - cbn [app] in LE. apply linked_mid in LE. destruct LE as [_ LE]. apply LE. split; congruence. }
  destruct r; try discriminate P; cbn [lhs] in M0; inv_map; cbn [app map] in GEN, C, V |- *; rewrite VM, ?sum1, ?sum2, ?sum3 in GEN |- *;
    repeat match goal with H : clz ?s = _ |- _ => rewrite (view_of s _ H) in GEN, C, V; revert H end; intros; cbn [target1 back] in *.
  - apply (GEN 1%nat); [apply step_W4; auto|lia].
  - apply (GEN 1%nat); [apply step_W4; auto|lia].
  - exfalso. cbn in RUN. decompose [or] RUN; try discriminate; contradiction.
  - apply (GEN 1%nat); [apply step_W5_1|lia].
  - apply (GEN 1%nat); [apply step_W5_2|lia].
  - apply (GEN 1%nat); [|lia]. apply step_W6_1. destruct vb as [|[c n] vb]; [reflexivity|]. cbn [cls map fst hd en_ahead] in *.
    destruct (Z.eqb_spec c cET) as [E|_]; [elim (proj2 (NL2 eq_refl E) eq_refl)|]. destruct (Z.eqb_spec c cEN) as [E|_]; [elim (NL1 eq_refl E eq_refl)|reflexivity].
  - apply (GEN 1%nat); [apply step_W6; auto|lia].
  - apply (GEN 1%nat); [apply step_W6; auto|lia].
  - destruct a as [|x a].
    + split; [|rewrite <- V].
      * cbn [map app length] in C |- *. clear - C. cbn [length Nat.sub].
        cbn in C |- *. apply andb_true_iff in C. destruct C as [_ C]. exact C.
      * cbn [app map]. symmetry. apply (so_fc _ _ _ _ (step_W6x e _ _ _)).
    + apply (GEN 0%nat); [apply step_W6x|cbn [length]; lia].
  - apply (GEN 1%nat); [|lia]. apply step_W7. intros E. elim (proj1 (NL2 eq_refl E) eq_refl).
Qed.

Lemma Y1i_step l lo hi M a s b : N1 true lo hi M (a ++ s :: b) -> Y1i l a (s :: b) -> weak (clz s) = false -> isisolate s = false ->
  noniso a -> strongs a -> no_long (s :: b) -> Y1i l (a ++ [s]) b.
Proof.
  intros _ ((ELR & GO) & vs & VW & C & V) W NI NA WA NL. destruct l as [e l0 target H]. cbn [l_e l_lo l_t l_h] in *.
  unfold Y1i. cbn [l_e l_lo l_t l_h]. rewrite <- app_assoc. cbn [app]. split; [split; auto|]. exists vs. split; auto. split; auto.
  destruct (views_pre e a _ _ _ NA VW) as (vs1 & h1 & VW1 & -> & _ & PA).
  destruct (views_pre e [s] b _ _ ltac:(auto) VW1) as (vb & hb & VB & -> & _ & PS). inversion PS as [|? ? (_ & _ & RS & _) _]; subst.
  rewrite app_length. cbn [length]. replace (S (length a + 1)) with (length a + 2)%nat by lia.
  rewrite cls_app, cls_view in *. cbn [map app cls view fst] in *. fold (cls vb) in *. rewrite <- (map_length clz a).
  apply chk_pass.
  - apply Forall_map. apply (plain_done e); auto.
  - apply done_of; auto.
  - intros E. destruct b as [|d t]; [inversion VB; subst; discriminate|].
    destruct (views_hd _ _ _ _ _ VB) as (c & n & vs' & -> & X). cbn [cls map hd fst]. intros D. destruct X as [[X _]|X]; [|rewrite X in D; discriminate D].
    apply (NL W6x [s; d] t); cbn; auto 12; congruence.
  - rewrite map_length. replace (length a + 1)%nat with (S (length a)) by lia. exact C.
Qed.

(* ---- pass 2 ---- *)
Definition F2i (l : level) (w : list scrap) : Prop :=
  Forall (plain (l_e l)) w /\ Forall (fun s => In (clz s) done9) w /\ nn (l_e l) (l_e l) (map clz w) /\
  fcP (l_e l) false (l_e l) (map view w) = l_t l /\ holes w = l_h l.
Definition Y2i (l : level) (i : scrap) (pre rest : list scrap) : Prop :=
  level_ok l /\
  ((pre = [] /\ exists w, rest = i :: w /\ F2i l w) \/
   (exists pre0, pre = i :: pre0 /\ F2i l (pre0 ++ rest) /\ Forall (fun s => In (clz s) lr9) pre0 /\ linked differ pre0 /\
      forall u x, pre0 = u ++ [x] -> no_meld (x :: rest))).

Lemma Y12i l lo hi M i w : N1 true lo hi M w -> Y1i l w [] -> noniso w -> strongs w -> isinit i = true -> Y2i l i [] (i :: w).
Proof.
  intros _ (OK & vs & VW & C & V) NI W _. destruct (views_pre (l_e l) w [] _ _ NI VW) as (vb & hb & VB & -> & EH & PW). inversion VB; subst.
  rewrite app_nil_r in *. split; auto. left. split; auto. exists w. split; auto. pose proof (plain_done _ _ PW W) as D. split; auto. split; auto.
  split; [|auto]. rewrite cls_view in C. apply (chk_nn (l_e l) _ _ false (S (length w))); auto; [|rewrite map_length; lia]. apply Forall_map. exact D.
Qed.

Lemma init_not i c : isinit i = true -> In c done9 -> clz i <> c.
Proof.
  intros II IC E. apply init_iso in II. destruct II as [II _]. unfold isisolate in II. rewrite E in II. clear E. cbn in IC.
  destruct IC as [X|[X|[X|[]]]]; rewrite <- X in II; discriminate II.
Qed.

Lemma Y2i_meld l i lo hi M a m b r : N2i true i lo hi M (a ++ m ++ b) -> Y2i l i a (m ++ b) -> melds r -> map clz m = lhs r ->
  Y2i l i a (merge (target2 r) m :: b).
Proof.
  intros ((w0 & E0 & II & _) & _ & T & _) (OK & Y) R M0. split; auto. destruct OK as (ELR & GO). destruct (lhs_meld r R) as (c & LC & TC & LH).
  destruct l as [e l0 target H]. unfold F2i in *. cbn [l_e l_lo l_t l_h] in *.
  assert (NM : m <> []) by (destruct m; [destruct LH as [X|X]; rewrite X in M0; discriminate M0|discriminate]).
  assert (HM : clz (hd scrap0 m) = c) by (destruct LH as [X|X]; rewrite X in M0; inv_map; auto).
  destruct Y as [(-> & w & E & _)|(pre0 & -> & (PL & F & N & V & HO) & FL & LD & Q)].
  { exfalso. destruct m as [|h m]; [congruence|]. injection E as -> _. cbn [hd] in HM. apply (init_not i c); auto. apply lr_done. auto. }
  right. exists pre0. split; auto.
  assert (T' : tiles (sr i) (pre0 ++ m ++ b) hi) by (cbn [app tiles] in T; tauto).
  pose proof (view_merge c pre0 m b _ _ T' NM) as VM. rewrite TC in *.
  split; [|split; [|split; [exact LD|]]]; auto.
  - apply Forall_app in PL. destruct PL as [P1 PL]. apply Forall_app in PL. destruct PL as [PM P2]. split; [|split; [|split; [|split]]].
    + apply Forall_app. split; auto. constructor; auto. split; [destruct LC as [<-|[<-|[]]]; reflexivity|].
      split; [|split; [destruct LC as [<-|[<-|[]]]; cbn; auto|apply (kids_merge _ _ e PM)]].
      destruct m as [|h m]; [congruence|]. inversion PM as [|? ? (_ & X & _) _]. exact X.
    + apply Forall_app in F. destruct F as [F1 F]. apply Forall_app in F. destruct F as [_ F]. apply Forall_app. split; auto. constructor; auto.
      cbn. apply lr_done. auto.
    + rewrite map_app in *. revert N. apply nn_cong2; [apply Forall_map; exact FL|]. intros p' _ _. rewrite map_app. cbn [map].
      destruct LH as [X|X]; rewrite X in M0; rewrite M0; cbn [merge clz]; unfold merge; cbn [clz]; [apply nn_same|apply nn_N1]; exact LC.
    + rewrite <- V, !map_app. symmetry. apply fcP_cong2; [apply Forall_map; exact FL|]. intros p' _ _. cbn [map]. rewrite VM.
      destruct LH as [X|X]; rewrite X in M0; inv_map; rewrite ?sum2, ?sum3; cbn [map app];
        repeat match goal with H : clz ?s = _ |- _ => rewrite (view_of s _ H); revert H end; intros; [apply fcP_same|apply fcP_N1]; exact LC.
    + rewrite <- HO. unfold holes. rewrite !flat_map_app. cbn [flat_map]. rewrite holes_merge. reflexivity.
  - intros u x -> r' m' v R' EM' ML'. apply (Q u x eq_refl r' (firstn (length m') (x :: m ++ b)) (skipn (length m') (x :: m ++ b)) R').
    + symmetry. apply firstn_skipn.
    + destruct (lhs_meld r' R') as (c' & LC' & _ & LH'). destruct m as [|h m]; [congruence|]. cbn [hd] in HM.
      destruct LH' as [X|X]; rewrite X in *; inv_map; injection EM' as <- EM' _.
      * subst. cbn in *. congruence.
      * exfalso. subst. cbn in *. clear - LC H1. destruct LC as [X|[X|[]]]; rewrite <- X in H1; discriminate H1.
Qed.

Lemma Y2i_N2 l i lo hi M a s b : N2i true i lo hi M (a ++ s :: b) -> Y2i l i a (s :: b) -> clz s = cNI ->
  Y2i l i (firstn (length a - 1) a) (skipn (length a - 1) a ++ with_clz s (se s) :: b).
Proof.
  intros ((w0 & E0 & II & _) & FB & T & _) (OK & Y) SN. split; auto. destruct OK as (ELR & GO).
  destruct l as [e l0 target H]. unfold F2i in *. cbn [l_e l_lo l_t l_h] in *.
  destruct Y as [(-> & w & E & _)|(pre0 & -> & (PL & F & N & V & HO) & FL & LD & Q)].
  { exfalso. injection E as E _. subst s. apply (init_not i cNI); cbn; auto. }
  assert (SE : se s = e).
  { apply Forall_app in PL. destruct PL as [_ PL]. inversion PL as [|? ? (_ & X & _) _]; subst. reflexivity. }
  rewrite SE.
  assert (LE : In e lr9) by (destruct ELR as [-> | ->]; cbn; auto).
  assert (VW : view (with_clz s e) = (e, slen s)) by reflexivity.
  assert (FBD : Forall (fun s => In (clz s) done9) b).
  { apply Forall_app in F. destruct F as [_ F]. inversion F; subst; auto. }
  assert (FN : F2i (mklevel e l0 target H) (pre0 ++ with_clz s e :: b)).
  { unfold F2i. cbn [l_e l_lo l_t l_h]. split; [|split; [|split; [|split]]].
    - apply Forall_app in PL. destruct PL as [P1 PL]. inversion PL as [|? ? (X1 & X2 & X3 & X4) P2]; subst. apply Forall_app. split; auto. constructor; auto.
      split; [destruct LE as [X|[X|[]]]; unfold isisolate; cbn [with_clz clz]; rewrite <- X; reflexivity|]. split; [reflexivity|].
      split; [cbn [with_clz clz]; destruct LE as [X|[X|[]]]; rewrite <- X; cbn; auto|exact X4].
    - apply Forall_app in F. destruct F as [F1 F]. apply Forall_app. split; auto. constructor; auto. cbn. apply lr_done. auto.
    - rewrite map_app in *. revert N. cbn [map]. apply nn_cong2; [apply Forall_map; exact FL|]. intros p' _ _. rewrite SN. cbn [with_clz clz].
      apply nn_N2; auto. apply Forall_map. exact FBD.
    - rewrite <- V, !map_app. symmetry. cbn [map].
      assert (NP : forall p', (map view pre0 = [] -> p' = e) -> (forall u x, map view pre0 = u ++ [x] -> p' = fst x) ->
        nn e p' (cls (map view (s :: b))) /\ (p' <> hd cNULL (map clz b) \/ p' = e) /\ p' <> cNI).
      { intros p' P1 P2. split; [|].
        - rewrite cls_view. rewrite map_app in N.
          clear - N FL P1 P2. revert N P1 P2. generalize e at 2 3. intros p. revert p.
          induction FL as [|x l X FL IH]; intros p N P1 P2; [rewrite P1; auto|]. cbn [map app nn] in N.
          assert (Y : (clz x =? cNI) = false) by (destruct X as [<-|[<-|[]]]; reflexivity). rewrite Y in N. clear Y X.
          apply (IH (clz x) N).
          + intros Z0. destruct l; [|discriminate Z0]. apply (P2 [] (view x)). reflexivity.
          + intros u y Z0. apply (P2 (view x :: u) y). cbn [map app]. rewrite Z0. reflexivity.
        - destruct pre0 as [|x0 l1] eqn:EP.
          + rewrite P1 by reflexivity. split; auto. destruct ELR as [-> | ->]; discriminate.
          + destruct (exists_last (l := x0 :: l1)) as (u & x & EX); [discriminate|]. rewrite EX in *.
            rewrite (P2 (map view u) (view x)) by (rewrite map_app; reflexivity). cbn [view fst].
            apply Forall_app in FL. destruct FL as [_ FL]. inversion FL as [|? ? LX _]; subst.
            split; [|destruct LX as [<-|[<-|[]]]; discriminate]. left.
            destruct b as [|d t]; [cbn; destruct LX as [<-|[<-|[]]]; discriminate|]. cbn [map hd]. intros DX.
            destruct LX as [LX|[LX|[]]].
            * apply (Q u x eq_refl N1_1 [x; s; d] t); unfold melds; auto. cbn. congruence.
            * apply (Q u x eq_refl N1_2 [x; s; d] t); unfold melds; auto. cbn. congruence. }
      apply fcP_cong2; [apply Forall_map; exact FL|]. intros p' P1 P2. destruct (NP p' P1 P2) as (N1' & N2' & N3').
      rewrite (view_of _ _ SN), VW. apply fcP_N2; auto.
      + apply Forall_map. exact FBD.
      + cbn [map] in N1'. rewrite (view_of _ _ SN) in N1'. exact N1'.
      + rewrite cls_view. exact N2'.
    - rewrite <- HO. unfold holes. rewrite !flat_map_app. reflexivity. }
  cbn [length]. replace (S (length pre0) - 1)%nat with (length pre0) by lia.
  destruct pre0 as [|x0 l1] eqn:EP.
  - cbn [length firstn skipn app]. left. split; auto. eexists. split; [reflexivity|]. exact FN.
  - destruct (exists_last (l := x0 :: l1)) as (u & x & EX); [discriminate|]. rewrite EX in *. clear EX EP x0 l1.
    right. exists u. rewrite app_length. cbn [length]. replace (length u + 1)%nat with (S (length u)) by lia.
    change (i :: u ++ [x]) with ((i :: u) ++ [x]).
    replace (S (length u)) with (length (i :: u)) by reflexivity.
    rewrite firstn_app, skipn_app, firstn_all, skipn_all, Nat.sub_diag. cbn [firstn skipn app]. rewrite app_nil_r.
    split; auto. split; [rewrite <- app_assoc in FN; exact FN|].
    apply Forall_app in FL. destruct FL as [FL FX]. inversion FX as [|? ? LX _]; subst. split; auto.
    split. { clear - LD. induction u as [|y u IH]; [exact I|]. destruct u as [|z u]; [exact I|]. cbn [app] in LD. destruct LD as [D1 D2]. split; auto. }
    intros u' y -> r m v R EM ML. destruct (lhs_meld r R) as (c & LC & _ & LH).
    assert (D : differ y x) by (rewrite <- app_assoc in LD; cbn [app] in LD; apply (linked_mid _ _ _ _ _ LD)).
    destruct LH as [X|X]; rewrite X in ML; inv_map; injection EM as <- <- _.
    + unfold differ in D. congruence.
    + rewrite H0 in LX. destruct LX as [LX|[LX|[]]]; discriminate LX.
Qed.

Lemma Y2i_step l i lo hi M a s b : N2i true i lo hi M (a ++ s :: b) -> Y2i l i a (s :: b) -> clz s <> cNI -> isbracket s = false ->
  no_meld (s :: b) -> Y2i l i (a ++ [s]) b.
Proof.
  intros _ (OK & Y) SN _ NM. split; auto. right. destruct Y as [(-> & w & E & FF)|(pre0 & -> & FF & FL & LD & Q)].
  - injection E as -> ->. exists []. split; auto. split; [exact FF|]. split; [constructor|]. split; [exact I|]. intros [|? ?] x X; discriminate X.
  - exists (pre0 ++ [s]). split; auto. split; [rewrite <- app_assoc; exact FF|].
    assert (LS : In (clz s) lr9).
    { destruct FF as (_ & F & _). apply Forall_app in F. destruct F as [_ F]. inversion F as [|? ? X _]; subst. cbn in X |- *.
      destruct X as [X|[X|[X|[]]]]; auto. }
    split; [apply Forall_app; split; auto|]. split.
    + destruct pre0 as [|x0 l0] eqn:EP; [exact I|]. destruct (exists_last (l := x0 :: l0)) as (u & x & EX); [discriminate|]. rewrite EX in *.
      specialize (Q u x eq_refl). rewrite <- app_assoc.
      assert (D : differ x s).
      { intros E. apply Forall_app in FL. destruct FL as [_ FL]. inversion FL as [|? ? LX _]; subst.
        destruct LX as [LX|[LX|[]]]; [apply (Q LL [x; s] b)|apply (Q RR [x; s] b)]; unfold melds; auto; cbn; congruence. }
      clear - LD D. induction u as [|y u IH]; [split; [exact D|exact I]|]. destruct u as [|z u]; cbn [app] in *.
      * destruct LD as [L1 L2]. split; auto.
      * destruct LD as [L1 L2]. split; auto.
    + intros u x X. apply app_inj_tail in X. destruct X as [_ <-]. exact NM.
Qed.

Lemma Y2i_bracket l i lo hi M a s b : N2i true i lo hi M (a ++ s :: b) -> Y2i l i a (s :: b) -> isbracket s = true ->
  Y2i l i (a ++ [s]) b /\ forall c u v, u ++ v = a ++ with_clz s c :: b -> Y2i l i u v.
Proof.
  intros ((w0 & E0 & II & _) & _) (_ & Y) BR. exfalso. unfold isbracket in BR. apply orb_true_iff in BR. rewrite !Z.eqb_eq in BR.
  destruct Y as [(-> & w & E & FF)|(pre0 & -> & (_ & F & _) & FL & LD & Q)].
  - injection E as -> _. apply init_iso in II. destruct II as [II _]. unfold isisolate in II. destruct BR as [X|X]; rewrite X in II; discriminate II.
  - apply Forall_app in F. destruct F as [_ F]. inversion F as [|? ? X _]; subst. cbn in X. destruct BR as [B|B]; rewrite B in X; decompose [or] X; try discriminate; contradiction.
Qed.

(* What is left at the end of a level. *)
Lemma Y2i_end l i w : Y2i l i w [] -> exists w', w = i :: w' /\ painted w' = l_t l /\ holes w' = l_h l /\ Forall (plain (l_e l)) w' /\
  Forall (fun s => clz s = cL \/ clz s = cR) w' /\ linked differ w' /\ level_ok l.
Proof.
  intros (OK & [(-> & w' & X & _)|(pre0 & -> & (PL & _ & _ & V & HO) & FL & LD & _)]); [discriminate X|]. rewrite app_nil_r in *.
  rewrite fcP_done in V by (apply Forall_map; exact FL). exists pre0. split; auto. split.
  - rewrite <- V. unfold painted. clear. induction pre0 as [|s l IH]; [reflexivity|]. cbn. rewrite IH. reflexivity.
  - split; auto. split; auto. split; [|auto]. eapply Forall_impl; [|exact FL]. intros s [X|[X|[]]]; auto.
Qed.

Lemma painted_length : forall w lo hi, tiles lo w hi -> length (painted w) = Z.to_nat (hi - lo).
Proof.
  induction w as [|s t IH]; intros lo hi T; [cbn in T |- *; lia|]. destruct T as (T1 & T2 & T3). pose proof (tiles_le _ _ _ T3).
  cbn [painted flat_map]. fold (painted t). rewrite app_length, repeat_length, (IH _ _ T3). lia.
Qed.

(* ---- isolates ---- *)
Lemma Y1i_iso l lo hi M a i b p v : N1 true lo hi M (a ++ i :: b ++ p :: v) -> Y1i l a (i :: b ++ p :: v) ->
  isinit i = true -> bal b -> clz p = cPDI -> bal v -> noniso a -> strongs a ->
  exists l', Y1i l' [] b /\ forall w lo' hi' M', N2i true i lo' hi' M' (i :: w) -> Y2i l' i (i :: w) [] -> Y1i l a (isolated i w p :: v).
Proof.
  intros (_ & _ & T & _) ((ELR & GO) & vs & VW & C & V) II BB PP BV NA WA. destruct l as [e l0 target H]. cbn [l_e l_lo l_t l_h] in *.
  destruct (views_pre e a _ _ _ NA VW) as (v1 & h1 & VI & -> & -> & PA).
  inversion VI as [|? ? ? ? ? (X & _)|i0 b0 p0 t0 vt ht e' vs' hs' II0 P0 E' V' C' G' Vt]; subst.
  { apply init_iso in II. destruct II; congruence. }
  pose proof (views_bal _ _ _ _ V') as B0.
  match goal with E : b0 ++ p0 :: t0 = b ++ p :: v |- _ => destruct (bal_unique b0 p0 t0 b p v B0 BB P0 PP E) as (<- & <- & <-) end.
  exists (mklevel e' (sr i) (fcP e' false e' vs') hs'). split.
  - unfold Y1i, level_ok. cbn [l_e l_lo l_t l_h app length]. split; [split; auto|]. exists vs'. auto.
  - intros w lo' hi' M' ((w1 & E1 & _ & FI) & FB & T2 & _) Y. injection E1 as <-.
    destruct (Y2i_end _ _ _ Y) as (w2 & E2 & P1 & P2 & P3 & P4 & P5 & OK'). injection E2 as <-. cbn [l_e l_lo l_t l_h] in *.
    assert (TB : tiles (sr i) b0 (sl p0)).
    { apply tiles_app in T. destruct T as (k & _ & T). destruct T as (_ & _ & T). apply tiles_app in T. destruct T as (j & T & T3). destruct T3 as (-> & _). exact T. }
    assert (TW : tiles (sr i) w hi') by (cbn [tiles] in T2; tauto).
    assert (HI : hi' = sl p0).
    { pose proof (painted_length _ _ _ TW) as L1. rewrite P1, fcP_length, (views_sum _ _ _ _ V' _ _ TB) in L1.
      pose proof (tiles_le _ _ _ TW). pose proof (tiles_le _ _ _ TB). lia. }
    subst hi'.
    assert (KO : kid_ok (i :: w ++ [p0])).
    { intros x X. rewrite hole_eq in X. unfold in_hole in X. cbn [fst snd] in X.
      assert (TK : tiles (sl i) (i :: w ++ [p0]) (sr p0)).
      { apply tiles_app in T. destruct T as (k & _ & T). destruct T as (<- & T0 & T). apply tiles_app in T. destruct T as (j & T & T3). destruct T3 as (<- & T4 & _).
        cbn [tiles]. split; auto. split; auto. apply tiles_app. exists (sl p0). split; auto. cbn. lia. }
      destruct (kid_class i w p0 x II PP TK) as [_ ->]. apply (level_end w (sr i) (sl p0)); auto.
      - inversion FB as [|? ? _ FB']; subst. eapply Forall_impl; [|exact FB']. intros s ((_ & Z0 & _) & _). exact Z0.
      - eapply Forall_impl; [|exact P3]. intros s (_ & _ & _ & Z0). exact Z0.
      - rewrite P1, P2. exact G'. }
    assert (PX : plain cL (isolated i w p0)).
    { split; [reflexivity|]. split; [reflexivity|]. split; [cbn; auto 9|]. cbn. constructor; [exact KO|constructor]. }
    pose proof (plain_done _ _ PA WA) as DA.
    set (n := Z.to_nat (sr p0 - sl i)) in *.
    unfold Y1i, level_ok. cbn [l_e l_lo l_t l_h]. split; [split; auto|]. exists (map view a ++ (cNI, n) :: vt). split; [|split].
    + apply views_back; auto. change ((sr i, sl p0) :: ht) with ([(sr i, sl p0)] ++ ht). rewrite <- (hole_eq i w p0).
      apply (views_plain cL (isolated i w p0) t0 vt ht PX Vt).
    + rewrite cls_app, cls_view in *. replace (S (length a)) with (length (map clz a) + 1)%nat in * by (rewrite map_length; lia).
      revert C. apply chk_cong; [apply Forall_map; exact DA|reflexivity|reflexivity|]. intros q g X. exact X.
    + symmetry. apply fcP_cong; [apply Forall_map; exact DA|reflexivity|]. intros q. reflexivity.
Qed.
End Target.

(* Both passes together. *)
Theorem resolve_iso G {store : Type} (findBr : store -> scrap -> option scrap * store) changeBr (SI : store -> Prop)
  (find_ok : forall b s a b', SI b -> findBr b s = (a, b') -> SI b' /\
    (clz s = cBRACKC -> forall o, a = Some o -> K true (clz o) \/ clz o = cNI \/ clz o = cBRACKO))
  (change_ok : forall b s, SI b -> K true (clz s) \/ clz s = cNI -> SI (changeBr b s)) md tot ss stp extra (b : store) n vs hs :
  N1 true 0 tot (marks ss) ss -> views G (outer md) ss vs hs -> chk (outer md) false (outer md) false 1 (cls vs) = true ->
  good G 0 (fcP (outer md) false (outer md) vs) hs -> room1 0 ss -> SI b ->
  Forall (fun s => clz s <> cNULL) ss -> clz stp = cNULL -> (rounds (length ss) <= n)%nat ->
  exists lv, ResolveLevels the_trie the_tab findBr changeBr n md (ss ++ stp :: extra) b = Ok (lv, extra) /\ resolved_tree md tot (marks ss) lv /\
    (forall x, 0 <= x < tot -> class_at (lv_scraps lv) x = Some (G x)) /\ painted (lv_scraps lv) = fcP (outer md) false (outer md) vs /\
    Forall (fun s => clz s = cL \/ clz s = cR \/ sl s = sr s) (lv_scraps lv).
Proof.
  intros N V C GO RM SB NN SN FU.
  assert (ELR : outer md = cL \/ outer md = cR) by (unfold outer; destruct (m_r2l md); auto).
  destruct (resolve_nested_more findBr changeBr true SI find_ok change_ok (Y1i G) (Y2i G)) with
    (md := md) (tot := tot) (ss := ss) (stp := stp) (extra := extra) (b := b) (n := n)
    (l := mklevel (outer md) 0 (fcP (outer md) false (outer md) vs) hs) as (lv & E & R & w & EW & Y); auto.
  - intros. eapply Y1i_rw; eauto.
  - intros. eapply Y1i_step; eauto.
  - intros. eapply Y1i_iso; eauto.
  - intros. eapply Y12i; eauto.
  - intros. eapply Y2i_meld; eauto.
  - intros. eapply Y2i_N2; eauto.
  - intros. eapply Y2i_step; eauto.
  - intros. eapply Y2i_bracket; eauto.
  - split; [split; auto|]. exists vs. auto.
  - eapply views_bal; eauto.
  - discriminate.
  - exists lv. split; auto. split; auto. destruct (Y2i_end _ _ _ _ Y) as (w' & E' & P1 & P2 & P3 & P4 & P5 & OK'). cbn [l_e l_lo l_t l_h] in *.
    destruct R as (_ & T & body & EB & _ & FB & _). rewrite E' in EW. rewrite EB in EW. injection EW as EW. apply app_inj_tail in EW. destruct EW as [-> _].
    destruct (initial_fields md) as (I1 & I2 & I3 & I4 & I5 & I6 & I7).
    rewrite EB in T |- *. split.
    2:{ split.
        2:{ constructor; [right; right; congruence|]. apply Forall_app. split; [|constructor; [right; right; reflexivity|constructor]].
            eapply Forall_impl; [|exact P4]. cbn beta. tauto. }
        unfold painted. cbn [flat_map]. rewrite I2, I3, flat_map_app. cbn [flat_map sl sr]. rewrite !Z.sub_diag, app_nil_r. cbn [Z.to_nat repeat app].
        rewrite ?app_nil_r. exact P1. }
    intros x X. cbn [tiles] in T. destruct T as (_ & _ & T). rewrite I3 in T. apply tiles_app in T. destruct T as (k & T & T2 & _).
    cbn [sl] in T2. subst k. rewrite class_cons, (at_iso x (initial md)) by exact I6.
    rewrite class_app. assert (Z0 : class_at w' x = Some (G x)); [|rewrite Z0; reflexivity].
    apply (level_end G w' 0 tot); auto.
    + eapply Forall_impl; [|exact P3]. intros s (Z0 & _). exact Z0.
    + eapply Forall_impl; [|exact P3]. intros s (_ & _ & _ & Z0). exact Z0.
    + rewrite P1, P2. exact GO.
Qed.
