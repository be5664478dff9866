(* Isolates.v -- the contexts of the scraps in texts with isolates. *)
From Coq Require Import List ZArith Lia Bool.
From Verif Require Import SplitProofs Base Scrap Brackets Scanner ScannerProofs ResolverText Resolver ResolverFlat ReorderSpec NestedText ScanContext SequenceSpec.
Import ListNotations.
Open Scope Z_scope.

(* Every run with the initiators of the isolates it is in, the innermost first; an initiator and its PDI
   count as outside of their isolate (BD13). *)
Fixpoint seats (open : list scrap) (l : list scrap) : list (list scrap * scrap) :=
  match l with
  | [] => []
  | s :: t =>
      if clz s =? cPDI then (tl open, s) :: seats (tl open) t
      else (open, s) :: seats (if initiator (clz s) then s :: open else open) t
  end.
(* The isolating run sequence of an isolate is known by the position of its initiator; that of the outer text by 0. *)
Definition seat (open : list scrap) : Z := home (map sl open).
(* The runs of one sequence. *)
Definition fellows (z : Z) (l : list (list scrap * scrap)) : list scrap := map snd (filter (fun x => seat (fst x) =? z) l).

(* The direction of a sequence, and the strong class at its beginning. *)
Definition direction (e : Z) (open : list scrap) : Z :=
  match open with [] => e | b :: _ => if clz b =? cRLI then cR else cL end.
Definition beginning (open : list scrap) : Z :=
  match open with [] => cL | b :: _ => if clz b =? cRLI then cR else cL end.

(* Initiators are LRI or RLI, and stand behind a run that is neither strong nor an isolate character.
   [may]: an initiator may come next. *)
Fixpoint roomy (may : bool) (cs : list Z) : bool :=
  match cs with
  | [] => true
  | c :: t => (if initiator c then may && negb (c =? cFSI) else true) && roomy (negb ((c =? cL) || (c =? cR) || is_isolate c)) t
  end.

Definition known (e : Z) (A : list (list scrap * scrap)) (open : list scrap) (at_ : Z) (d : dirctx) : Prop :=
  let e := direction e open in let M := fellows (seat open) A in
  knows e (last_strong (beginning open) (map clz M)) (last_pos e (seat open) M) (snd (opps e (seat open, None) M)) at_ d.

Fixpoint saved (e : Z) (A : list (list scrap * scrap)) (at_ : Z) (open : list scrap) (stk : list dirctx) : Prop :=
  match open, stk with
  | [], [] => True
  | _ :: o, x :: r => known e A o at_ x /\ saved e A at_ o r
  | _, _ => False
  end.

(* The context for the next run, if it is no initiator. *)
Definition handed (d : dirctx) (a : scrap) : dirctx :=
  if (clz a =? cL) || (clz a =? cLRI) then set_strong d cL (sl a) else if (clz a =? cR) || (clz a =? cRLI) then set_strong d cR (sl a) else d.
Definition back (stk : list dirctx) (a : scrap) : dirctx * list dirctx :=
  if clz a =? cPDI then match stk with [] => (sctx a, []) | x :: r => (x, r) end else (sctx a, stk).

Lemma fellows_app z a b : fellows z (a ++ b) = fellows z a ++ fellows z b.
Proof. unfold fellows. rewrite filter_app, map_app. reflexivity. Qed.
Lemma fellows_one z o s : fellows z [(o, s)] = if seat o =? z then [s] else [].
Proof. unfold fellows. cbn [filter fst]. destruct (_ =? _); reflexivity. Qed.

Lemma knows_later e s m q a b d : knows e s m q a d -> a <= b -> knows e s m q b d.
Proof.
  intros (K1 & K2 & K3 & K4 & K5 & K6 & K7) LE. unfold knows. kn. destruct q; [|exact K7]. destruct K7. split; [lia|auto].
Qed.
Lemma last_strong_app s a b : last_strong s (a ++ b) = last_strong (last_strong s a) b.
Proof. apply fold_left_app. Qed.
Lemma last_pos_app e m a b : last_pos e m (a ++ b) = last_pos e (last_pos e m a) b.
Proof. apply fold_left_app. Qed.

Lemma direction_dir e open : e = cL \/ e = cR -> direction e open = cL \/ direction e open = cR.
Proof. intros E. unfold direction. destruct open; [exact E|]. destruct (_ =? _); auto. Qed.

(* A run of another sequence, or a neutral run of this sequence, adds nothing. *)
Lemma known_other e A open at_ b d o s : e = cL \/ e = cR -> seat o <> seat open \/ clz s <> cL /\ clz s <> cR ->
  known e A open at_ d -> at_ <= b -> known e (A ++ [(o, s)]) open b d.
Proof.
  intros E N K LE. unfold known in *. cbv zeta in *. rewrite fellows_app, fellows_one. pose proof (direction_dir e open E) as D.
  destruct (Z.eqb_spec (seat o) (seat open)) as [X|X]; [|rewrite app_nil_r; eapply knows_later; eassumption].
  destruct N as [N|[N1 N2]]; [contradiction|]. rewrite map_app, last_strong_app, last_pos_app, opps_app. set (M := fellows _ A) in *.
  assert (E1 : last_strong (last_strong (beginning open) (map clz M)) (map clz [s]) = last_strong (beginning open) (map clz M)).
  { cbn [map]. unfold last_strong at 1. cbn [fold_left]. apply Z.eqb_neq in N1, N2. rewrite N1, N2. reflexivity. }
  assert (N3 : clz s <> direction e open /\ clz s <> opposite (direction e open)) by (destruct D as [-> | ->]; split; auto).
  assert (E2 : last_pos (direction e open) (last_pos (direction e open) (seat open) M) [s] = last_pos (direction e open) (seat open) M).
  { unfold last_pos at 1. cbn [fold_left]. destruct N3 as [N3 _]. apply Z.eqb_neq in N3. rewrite N3. reflexivity. }
  rewrite E1, E2. rewrite (surjective_pairing (opps _ (seat open, None) M)). rewrite (opps_none _ [s]) by (constructor; [exact N3|constructor]). cbn [snd].
  eapply knows_later; eassumption.
Qed.

(* A run of this sequence. *)
Lemma known_add e A open s d : e = cL \/ e = cR -> known e A open (sl s) d -> sl s < sr s -> sr s < 2 ^ 32 -> (sl s = 0 -> odist d = 0) ->
  known e (A ++ [(open, s)]) open (sr s) (bare d s).
Proof.
  intros E K LT B Z0. unfold known in *. cbv zeta in *. rewrite fellows_app, fellows_one, Z.eqb_refl. set (M := fellows _ A) in *.
  pose proof (bare_knows _ _ _ _ s d (direction_dir e open E) K LT B Z0) as X.
  rewrite map_app, last_strong_app, last_pos_app, opps_app. cbn [map].
  replace (snd (opps (direction e open) (opps (direction e open) (seat open, None) M) [s]))
    with (next_opp (direction e open) (last_pos (direction e open) (seat open) M) (snd (opps (direction e open) (seat open, None) M)) s); [exact X|].
  rewrite (surjective_pairing (opps _ (seat open, None) M)) at 2. rewrite opps_fst. reflexivity.
Qed.

(* The positions of the initiators: strictly descending, positive, at most [hi]. *)
Fixpoint nested (hi : Z) (open : list scrap) : Prop :=
  match open with [] => True | b :: o => 0 < sl b < hi /\ nested (sl b) o end.
Lemma nested_le : forall o hi hi', nested hi o -> hi <= hi' -> nested hi' o.
Proof. destruct o; intros; cbn in *; [auto|]. destruct H. split; [lia|auto]. Qed.
Lemma nested_seat o hi : 0 < hi -> nested hi o -> 0 <= seat o < hi.
Proof. destruct o as [|b o]; cbn; lia. Qed.
Lemma nested_apart o' : forall o hi, nested hi (o ++ o') -> o <> [] -> seat (o ++ o') <> seat o'.
Proof.
  intros [|b o] hi N NE; [contradiction|]. cbn [app nested] in N. destruct N as [N1 N2].
  assert (G : forall o hi, 0 < hi -> nested hi (o ++ o') -> seat o' < hi).
  { induction o0 as [|c o0 IH]; intros h P H; cbn [app] in H; [apply nested_seat in H; [lia|exact P]|]. cbn [nested] in H. destruct H as [H1 H2]. specialize (IH (sl c) ltac:(lia) H2). lia. }
  cbn [app]. unfold seat at 1. cbn [map home hd]. specialize (G o (sl b) ltac:(lia) N2). lia.
Qed.

Lemma saved_other e A at_ b o s : e = cL \/ e = cR -> at_ <= b -> forall open stk u hi, nested hi (u ++ open) -> (u = [] -> clz s <> cL /\ clz s <> cR) -> o = u ++ open ->
  saved e A at_ open stk -> saved e (A ++ [(o, s)]) b open stk.
Proof.
  intros E LE. induction open as [|c open IH]; intros stk u hi N U EO S; [destruct stk; [exact Logic.I|destruct S]|]. destruct stk as [|x stk]; [destruct S|].
  cbn [saved] in *. destruct S as [S1 S2]. split.
  - apply (known_other e A open at_ b x o s E); auto. left. subst o. replace (u ++ c :: open) with ((u ++ [c]) ++ open) by (rewrite <- app_assoc; reflexivity).
    apply (nested_apart open (u ++ [c]) hi); [rewrite <- app_assoc; exact N|destruct u; discriminate].
  - apply (IH stk (u ++ [c]) hi); [rewrite <- app_assoc; exact N|destruct u; discriminate|rewrite <- app_assoc; exact EO|exact S2].
Qed.

Lemma set_strong_start c s q m p : c = cL \/ c = cR -> m < p -> set_strong (mkdc c s q m) c p = mkdc c c q p.
Proof.
  intros C LT. unfold set_strong. cbn [edir mpos odist strong]. apply Z.ltb_lt in LT. rewrite LT, Z.eqb_refl. destruct C as [-> | ->]; reflexivity.
Qed.

Section Walk.
Context (e : Z) (E : e = cL \/ e = cR) (hi : Z) (B : hi < 2 ^ 32).

Record state (A : list (list scrap * scrap)) (open : list scrap) (stk : list dirctx) (a : scrap) : Prop := mkstate {
  t_now : known e A open (sr a) (handed (fst (back stk a)) a);
  t_saved : saved e A (sr a) open (snd (back stk a));
  t_open : nested (sr a) open;
  t_past : Forall (fun x => seat (fst x) = 0 \/ seat (fst x) < sr a) A;
  t_first : sr a = 0 -> odist (handed (fst (back stk a)) a) = 0;
  t_al : clz a <> cAL }.

Definition room (a : scrap) : bool := negb ((clz a =? cNULL) || (clz a =? cL) || (clz a =? cR) || is_isolate (clz a)).

Lemma seat_bound hi' o : nested hi' o -> seat o = 0 \/ seat o < hi'.
Proof. destruct o as [|b o]; cbn; [auto|]. lia. Qed.

Lemma walk_step A open stk a b t : state A open stk a -> chain false stk (-1) (a :: b :: t) -> sl b = sr a -> 0 <= sl b < sr b -> sr b < 2 ^ 32 ->
  (initiator (clz b) = true -> 0 < sl b /\ room a = true /\ clz b <> cFSI) ->
  let o := if clz b =? cPDI then tl open else open in
  let open' := if clz b =? cPDI then tl open else if initiator (clz b) then b :: open else open in
  let stk' := snd (restored stk a b) in
  state (A ++ [(o, b)]) open' stk' b /\ chain false stk' (-1) (b :: t) /\ (isisolate b = false -> known e A open (sl b) (sctx b)).
Proof.
  intros [T1 T2 T3 T4 T5 T6] CH SB LT BD IN o open' stk'. inversion CH as [|? ? ? ? ? al' H1 H2 H4 H3]; subst. destruct H2 as [->|?]; [|discriminate].
  rewrite <- SB in *.
  assert (P4 : forall x, seat x = 0 \/ seat x < sr b -> Forall (fun y => seat (fst y) = 0 \/ seat (fst y) < sr b) (A ++ [(x, b)])).
  { intros x X. apply Forall_app. split; [eapply Forall_impl; [|exact T4]; cbn; intros; lia|]. constructor; [exact X|constructor]. }
  assert (OB : seat open = 0 \/ seat open < sr b) by (apply seat_bound in T3; lia).
  destruct (initiator (clz b)) eqn:EI.
  - (* an initiator *)
    destruct (IN eq_refl) as (P0 & RM & NF). unfold room in RM. apply negb_true_iff in RM. apply orb_false_iff in RM. destruct RM as [RM RI]. apply orb_false_iff in RM. destruct RM as [RM R2]. apply orb_false_iff in RM. destruct RM as [_ R1].
    unfold is_isolate in RI. repeat (apply orb_false_iff in RI; destruct RI as [RI ?]).
    assert (BK : back stk a = (sctx a, stk)) by (unfold back; repeat match goal with X : (clz a =? _) = false |- _ => rewrite X end; reflexivity).
    assert (HA : handed (sctx a) a = sctx a) by (unfold handed; repeat match goal with X : (clz a =? _) = false |- _ => rewrite X end; reflexivity).
    rewrite BK in *. cbn [fst snd] in *. rewrite HA in *.
    assert (RS : restored stk a b = (sctx a, sctx a :: stk)) by (unfold restored; rewrite EI; reflexivity).
    assert (PD : (clz b =? cPDI) = false) by (apply Z.eqb_neq; intros X; rewrite X in EI; discriminate).
    assert (ISO : isisolate b = true) by (unfold isisolate; unfold initiator in EI; rewrite EI; reflexivity).
    unfold stk', open', o. rewrite RS, PD. cbn [fst snd]. rewrite RS in H1, H3. cbn [fst snd] in H1, H3. clear stk' open' o.
    split; [|split; [exact H3|congruence]].
    assert (CB : clz b = cLRI \/ clz b = cRLI).
    { unfold initiator in EI. destruct (Z.eqb_spec (clz b) cLRI); auto. destruct (Z.eqb_spec (clz b) cRLI); auto. cbn [orb] in EI. apply Z.eqb_eq in EI. contradiction. }
    assert (NS : clz b <> cL /\ clz b <> cR) by (destruct CB as [-> | ->]; split; discriminate).
    assert (BB : back (sctx a :: stk) b = (sctx b, sctx a :: stk)) by (unfold back; rewrite PD; reflexivity).
    constructor; rewrite ?BB; cbn [fst snd].
    + (* the inside *)
      unfold known. cbv zeta. assert (FN : fellows (seat (b :: open)) (A ++ [(open, b)]) = []).
      { rewrite fellows_app, fellows_one. assert (X : (seat open =? seat (b :: open)) = false) by (apply Z.eqb_neq; apply seat_bound in T3; change (seat (b :: open)) with (sl b); lia).
        rewrite X, app_nil_r. unfold fellows. replace (filter _ A) with (@nil (list scrap * scrap)); [reflexivity|]. symmetry.
        clear -T4 P0. induction A as [|x A' IH]; [reflexivity|]. cbn [filter]. pose proof (Forall_inv T4) as X. cbn beta in X.
        destruct (Z.eqb_spec (seat (fst x)) (seat (b :: open))) as [Y|Y]; [change (seat (b :: open)) with (sl b) in Y; lia|]. apply IH. exact (Forall_inv_tail T4). }
      rewrite FN. cbn [map last_strong fold_left last_pos opps snd]. change (seat (b :: open)) with (sl b).
      destruct T1 as (K1 & K2 & K3 & K4 & K5 & K6 & K7). set (m := last_pos _ _ _) in *.
      assert (ML : m < sl b) by (destruct (Z.eq_dec m 0); lia).
      assert (HB : handed (sctx b) b = mkdc (if clz b =? cRLI then cR else cL) (if clz b =? cRLI then cR else cL) (odist (sctx a)) (sl b)).
      { clear -H1 CB K3 ML. unfold handed. rewrite H1. unfold inheritStrongTypes. cbn [with_ctx sctx]. rewrite K3. clearbody m. destruct CB as [-> | ->]; apply set_strong_start; auto. }
      rewrite HB. change (direction e (b :: open)) with (if clz b =? cRLI then cR else cL). change (beginning (b :: open)) with (if clz b =? cRLI then cR else cL).
      unfold knows. cbn [edir strong mpos odist]. kn. auto.
    + (* the outside *)
      cbn [saved]. split; [apply (known_other e A open (sl b)); auto; lia|].
      apply (saved_other e A (sl b) (sr b) open b E ltac:(lia) open stk [] (sl b)); auto.
    + cbn [nested]. split; [lia|exact T3].
    + apply P4. exact OB.
    + intros X0. clear -X0 LT. lia.
    + destruct CB as [-> | ->]; discriminate.
  - assert (RS : restored stk a b = back stk a) by (unfold restored, back; rewrite EI; reflexivity).
    assert (HB : sctx b = handed (fst (back stk a)) a).
    { rewrite H1, RS. unfold inheritStrongTypes, handed. cbn [with_ctx sctx clz sl]. unfold initiator in EI. apply orb_false_iff in EI. destruct EI as [EI EI3]. apply orb_false_iff in EI. destruct EI as [EI1 EI2].
      rewrite EI1, EI2. change (0 <=? -1) with false. cbv iota. apply Z.eqb_neq in T6. rewrite T6. reflexivity. }
    rewrite RS in H3. unfold stk'. rewrite RS. clear stk'. split; [|split; [exact H3|intros _; rewrite HB; exact T1]].
    destruct (clz b =? cPDI) eqn:EP.
    + (* PDI *)
      unfold open', o. clear open' o. pose proof EP as EP'. apply Z.eqb_eq in EP'.
      assert (NS : clz b <> cL /\ clz b <> cR) by (rewrite EP'; split; discriminate).
      assert (HN : forall d, handed d b = d) by (intros d; unfold handed; rewrite EP'; reflexivity).
      assert (TO : nested (sr b) (tl open)) by (destruct open as [|c open]; [exact Logic.I|]; cbn [nested tl] in *; apply (nested_le _ (sl c)); [tauto|lia]).
      destruct (back stk a) as [d0 st0] eqn:EB. cbn [fst snd] in *.
      assert (SV : fst (back st0 b) = (match st0 with [] => sctx b | x :: _ => x end) /\ snd (back st0 b) = tl st0) by (unfold back; rewrite EP; destruct st0; auto).
      destruct SV as [SV1 SV2].
      constructor; rewrite ?HN, ?SV1, ?SV2.
      * destruct open as [|c open]; destruct st0 as [|x st0]; try (destruct T2; fail).
        -- cbn [tl]. rewrite HB. apply (known_other e A [] (sl b)); auto; lia.
        -- cbn [tl]. cbn [saved] in T2. apply (known_other e A open (sl b)); [exact E|right; exact NS|tauto|lia].
      * destruct open as [|c open]; destruct st0 as [|x st0]; try (destruct T2; fail); [exact Logic.I|]. cbn [tl saved nested] in *.
        apply (saved_other e A (sl b) (sr b) open b E ltac:(lia) open st0 [] (sr b)); [exact TO|auto|reflexivity|tauto].
      * exact TO.
      * apply P4. apply (seat_bound _ _ TO).
      * intros X0. clear -X0 LT. lia.
      * rewrite EP'. discriminate.
    + unfold open', o. clear open' o.
      assert (IB : isisolate b = false) by (unfold isisolate; unfold initiator in EI; rewrite EI, EP; reflexivity).
      assert (HN : forall d, handed d b = bare d b).
      { intros d. unfold handed, bare. unfold initiator in EI. apply orb_false_iff in EI. destruct EI as [EI _]. apply orb_false_iff in EI. destruct EI as [-> ->]. rewrite !orb_false_r. reflexivity. }
      assert (BB : back (snd (back stk a)) b = (sctx b, snd (back stk a))) by (unfold back at 1; rewrite EP; reflexivity).
      constructor; rewrite ?BB; cbn [fst snd]; rewrite ?HN.
      * apply known_add; auto; [rewrite HB; exact T1|lia|rewrite HB; exact T5].
      * destruct open as [|c open]; destruct (snd (back stk a)) as [|x st0]; try (destruct T2; fail); [exact Logic.I|]. cbn [saved nested] in *. split.
        -- apply (known_other e A open (sl b)); [exact E| |tauto|lia]. left. apply (nested_apart open [c] (sl b)); [exact T3|discriminate].
        -- apply (saved_other e A (sl b) (sr b) (c :: open) b E ltac:(lia) open st0 [c] (sl b)); [exact T3|discriminate|reflexivity|tauto].
      * apply (nested_le _ (sl b)); [exact T3|lia].
      * apply P4. exact OB.
      * intros X0. clear -X0 LT. lia.
      * exact H4.
Qed.

Lemma walk : forall t A open stk a, state A open stk a -> chain false stk (-1) (a :: t) -> tiles (sr a) t hi -> Forall (fun s => sl s < sr s) t -> 0 <= sr a ->
  (room a = true -> 0 < sr a) -> Forall (fun s => clz s <> cNULL) t -> roomy (room a) (map clz t) = true ->
  forall A' o s C, seats open t = A' ++ (o, s) :: C -> isisolate s = false -> known e (A ++ A') o (sl s) (sctx s).
Proof.
  induction t as [|b t IH]; intros A open stk a ST CH T F P R NN RO A' o s C EQ IS; [destruct A'; discriminate|].
  destruct T as (T1 & T2 & T3). pose proof (Forall_inv F) as F1. apply Forall_inv_tail in F. cbn beta in F1. pose proof (Forall_inv NN) as N1. apply Forall_inv_tail in NN. cbn beta in N1.
  cbn [map roomy] in RO. apply andb_true_iff in RO. destruct RO as [R1 R2].
  pose proof (tiles_le _ _ _ T3) as TL.
  destruct (walk_step A open stk a b t ST CH T1 ltac:(lia) ltac:(lia)) as (ST' & CH' & KB).
  { intros X. rewrite X in R1. apply andb_true_iff in R1. destruct R1 as [R1 R3]. apply negb_true_iff, Z.eqb_neq in R3. specialize (R R1). repeat split; auto. lia. }
  assert (RB : room b = negb ((clz b =? cL) || (clz b =? cR) || is_isolate (clz b))) by (unfold room; apply Z.eqb_neq in N1; rewrite N1; reflexivity).
  rewrite <- RB in R2. cbn [seats] in EQ.
  destruct (clz b =? cPDI) eqn:EP.
  - destruct A' as [|x A']; cbn [app] in EQ.
    + injection EQ as EQ1 EQ2 EQ3. subst s. unfold isisolate in IS. rewrite EP, orb_true_r in IS. discriminate.
    + injection EQ as <- EQ. assert (X : known e ((A ++ [(tl open, b)]) ++ A') o (sl s) (sctx s)) by (apply (IH _ _ _ _ ST' CH' T3 F ltac:(lia) ltac:(lia) NN R2 _ _ _ _ EQ IS)).
      rewrite <- app_assoc in X. exact X.
  - destruct A' as [|x A']; cbn [app] in EQ.
    + injection EQ as EQ1 EQ2 EQ3. subst s o. rewrite app_nil_r. apply KB. exact IS.
    + injection EQ as <- EQ. assert (X : known e ((A ++ [(open, b)]) ++ A') o (sl s) (sctx s)) by (apply (IH _ _ _ _ ST' CH' T3 F ltac:(lia) ltac:(lia) NN R2 _ _ _ _ EQ IS)).
      rewrite <- app_assoc in X. exact X.
Qed.
End Walk.

(* ---- N0, from what is known of the two contexts ---- *)
Lemma last_strong_lr : forall l s, s = cL \/ s = cR -> last_strong s l = cL \/ last_strong s l = cR.
Proof. induction l as [|y l IH]; intros s H; [exact H|]. cbn [last_strong fold_left]. apply IH. destruct (y =? cL); auto. destruct (y =? cR); auto. Qed.

Theorem n0_known e s m q o w c : e = cL \/ e = cR -> s = cL \/ s = cR -> knows e s m q (sl o) (sctx o) -> m < sl o ->
  knows e (last_strong s (map clz (o :: w))) (last_pos e m (o :: w)) (snd (opps e (m, q) (o :: w))) (sl c) (sctx c) ->
  isbracket o = true -> Forall (fun x => sl o <= sl x) w -> sl c < 65536 ->
  n0_code o c = n0 e s (map clz w) \/
  n0_code o c = e /\ s = e /\ existsb (Z.eqb e) (map clz w) = false /\ existsb (Z.eqb (opposite e)) (map clz w) = false.
Proof.
  intros E S KO MO KC BO PW CB. destruct KO as (O1 & O2 & O3 & O4 & O5 & O6 & O7). destruct KC as (C1 & C2 & C3 & C4 & C5 & C6 & C7).
  assert (NO : clz o <> e /\ clz o <> opposite e).
  { unfold isbracket in BO. apply orb_true_iff in BO. destruct BO as [X|X]; apply Z.eqb_eq in X; rewrite X; destruct E as [-> | ->]; split; discriminate. }
  assert (OW : opps e (m, q) (o :: w) = opps e (m, q) w).
  { change (o :: w) with ([o] ++ w). rewrite opps_app, (opps_none e [o]); [reflexivity|]. constructor; auto. }
  assert (MC : last_pos e m (o :: w) = last_pos e m w).
  { pose proof (f_equal fst OW) as X. rewrite !opps_fst in X. exact X. }
  rewrite MC in *. rewrite OW in C7.
  assert (SE : se o = e) by exact O1.
  assert (SO : so o = opposite e) by (unfold so; rewrite O1; reflexivity).
  assert (STO : dcStrong (sctx o) = s) by (unfold dcStrong; rewrite O2; destruct S as [-> | ->]; reflexivity).
  unfold n0_code. rewrite SE, SO, STO. unfold has_match_after, has_opposite_after. rewrite C3. unfold n0.
  destruct (last_pos_in e w m) as [[LP NM]|(x & I & CX & LP)].
  - (* no match *)
    rewrite LP in *. assert (X : existsb (Z.eqb e) (map clz w) = false) by (apply existsb_none; auto). rewrite X.
    destruct (Z.leb_spec (sl o) m); [lia|].
    assert (U : u32 (m + odist (sctx c)) = m + odist (sctx c)) by (unfold u32; apply Z.mod_small; lia). rewrite U.
    destruct (opps_opp e w m q (sl o) NM PW MO) as [NP|(x & I & SX)].
    + assert (Y : existsb (Z.eqb (opposite e)) (map clz w) = false) by (apply existsb_none; auto). rewrite Y.
      rewrite opps_none in C7. 2: { rewrite Forall_forall in *. auto. }
      cbn [snd] in C7. destruct q as [p|].
      * destruct C7 as [_ C7]. destruct O7 as [O7 _]. destruct (Z.leb_spec (sl o) (m + odist (sctx c))); [lia|left; reflexivity].
      * destruct (Z.leb_spec (sl o) (m + odist (sctx c))) as [LE|_]; [|left; reflexivity]. right.
        assert (SS : last_strong s (map clz (o :: w)) = s).
        { assert (Z0 : forall l, Forall (fun x => clz x <> e /\ clz x <> opposite e) l -> last_strong s (map clz l) = s).
          { clear - E. unfold last_strong. induction l as [|y l IHl]; intros Fl; [reflexivity|]. inversion Fl as [|? ? [G1 G2] G3]; subst. cbn [map fold_left].
            assert (clz y <> cL /\ clz y <> cR) as [H1 H2] by (destruct E as [-> | ->]; cbn in G2; auto). apply Z.eqb_neq in H1, H2. rewrite H1, H2. auto. }
          apply Z0. constructor; auto. rewrite Forall_forall in *. auto. }
        rewrite SS in C7. destruct C7 as [C7|C7]; [lia|]. split; [|auto].
        rewrite C7. destruct E as [-> | ->]; reflexivity.
    + assert (Y : existsb (Z.eqb (opposite e)) (map clz w) = true).
      { destruct (existsb (Z.eqb (opposite e)) (map clz w)) eqn:Y; [reflexivity|]. exfalso. apply existsb_none in Y.
        rewrite opps_none in SX by (rewrite Forall_forall in *; auto). cbn [snd] in SX. rewrite Forall_forall in PW. specialize (PW x I). rewrite SX in O7. lia. }
      rewrite Y. rewrite SX in C7. destruct C7 as [C7 C8]. rewrite Forall_forall in PW. specialize (PW x I).
      destruct (Z.leb_spec (sl o) (m + odist (sctx c))); [left; reflexivity|]. exfalso. lia.
  - (* a match *)
    assert (X : existsb (Z.eqb e) (map clz w) = true) by (apply existsb_class; eauto). rewrite X. rewrite LP. rewrite Forall_forall in PW. specialize (PW x I).
    destruct (Z.leb_spec (sl o) (sl x)); [left; reflexivity|lia].
Qed.

(* ---- where a run sits ---- *)
Lemma seats_snd : forall l open, map snd (seats open l) = l.
Proof. induction l as [|s l IH]; intros open; [reflexivity|]. cbn [seats]. destruct (_ =? _); cbn [map snd]; rewrite IH; reflexivity. Qed.
Lemma seats_open : forall l open x, In x (seats open l) -> forall b, In b (fst x) -> In b open \/ In b l /\ initiator (clz b) = true.
Proof.
  induction l as [|s l IH]; intros open x I b J; [destruct I|]. cbn [seats] in I.
  assert (TL : In b (tl open) -> In b open) by (destruct open; [auto|right; auto]).
  destruct (clz s =? cPDI).
  - destruct I as [<-|I]; [auto|]. destruct (IH _ _ I b J) as [X|[X Y]]; [auto|]. right. split; [right; exact X|exact Y].
  - destruct I as [<-|I]; [auto|]. destruct (IH _ _ I b J) as [X|[X Y]]; [|right; split; [right; exact X|exact Y]].
    destruct (initiator (clz s)) eqn:EI; [|auto]. destruct X as [<-|X]; [right; split; [left; reflexivity|exact EI]|auto].
Qed.
