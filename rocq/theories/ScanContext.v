(* ScanContext.v -- the directional contexts of the scraps that the scanner sends. *)
From Coq Require Import List ZArith Lia Bool.
From Verif Require Import SplitProofs Base Scrap Brackets Scanner ScannerProofs ResolverText Resolver ResolverFlat ReorderSpec NestedText.
Import ListNotations.
Open Scope Z_scope.

(* ---- the contexts of neighbouring scraps ----
   [stk]: saved contexts, the last one first; [al]: the position of the last scrap that began with an AL. *)
Definition restored (stk : list dirctx) (a b : scrap) : dirctx * list dirctx :=
  if initiator (clz b) then (sctx a, sctx a :: stk)
  else if clz a =? cPDI then match stk with [] => (sctx a, []) | x :: r => (x, r) end
  else (sctx a, stk).
Inductive chain (hasal : bool) : list dirctx -> Z -> list scrap -> Prop :=
| chain_one stk al a : chain hasal stk al [a]
| chain_cons stk al a b t al' :
    sctx b = sctx (inheritStrongTypes b (with_ctx a (fst (restored stk a b))) al) ->
    (al' = al \/ hasal = true) -> clz b <> cAL ->
    chain hasal (snd (restored stk a b)) al' (b :: t) -> chain hasal stk al (a :: b :: t).

Section Chain.
Context (md : mode) (props : Z -> Z * Z) (upper : Z -> bool).
Notation eff := (eff md props upper).
Notation para := (para md props).
Notation classes := (classes_of md props upper).
Context (hasal : bool).
Definition al_free (l : list (Z * Z)) : Prop := hasal = false -> Forall (fun c => c <> cAL) (classes l).

Lemma restored_code st cur la : 
  let pr := if isisolate la && negb (clz la =? cPDI) then (with_ctxs st (s_ctx st ++ [sctx cur]), cur)
          else match s_ctx st with
               | [] => (st, cur)
               | x :: _ => if clz cur =? cPDI
                           then (with_ctxs st (removelast (s_ctx st)), with_ctx cur (last (s_ctx st) x))
                           else (st, cur)
               end in
  s_rest (fst pr) = s_rest st /\ s_hs (fst pr) = s_hs st /\ s_bd (fst pr) = s_bd st /\
  snd pr = with_ctx cur (fst (restored (rev (s_ctx st)) cur la)) /\ rev (s_ctx (fst pr)) = snd (restored (rev (s_ctx st)) cur la).
Proof.
  cbv zeta. assert (E : isisolate la && negb (clz la =? cPDI) = initiator (clz la)) by (rewrite initiator_isinit; reflexivity). rewrite E.
  unfold restored. assert (W : with_ctx cur (sctx cur) = cur) by (destruct cur; reflexivity).
  destruct (initiator (clz la)).
  - cbn. rewrite rev_app_distr, W. auto.
  - destruct (s_ctx st) as [|x t] eqn:ES.
    + cbn [rev fst snd]. rewrite ES. destruct (clz cur =? cPDI); cbn [fst snd rev]; rewrite W; auto.
    + destruct (clz cur =? cPDI); cbn [fst snd]; [|rewrite ES, W; auto].
      destruct (@exists_last _ (x :: t)) as (u & y & EL); [discriminate|]. rewrite EL. rewrite removelast_last, last_last, rev_app_distr. cbn. auto.
Qed.

Lemma switch_keeps st s st' : handleIsolatingRunSwitch st s = Some st' -> s_rest st' = s_rest st /\ s_ctx st' = s_ctx st.
Proof.
  unfold handleIsolatingRunSwitch. destruct (clz s =? cPDI).
  - destruct (s_stack st); [intros X; injection X as <-; auto|]. destruct (nth_error (s_hs st) (s_bd st)); [|discriminate]. cbn [obind].
    destruct (match removelast _ with [] => _ | _ => _ end); [|discriminate]. intros X. injection X as <-. auto.
  - destruct (irs_find _ _); [|discriminate]. cbn [obind]. destruct (last_irs _ _ _) as [i|]; [|discriminate]. cbn [obind].
    destruct (nth_error _ _); [|discriminate]. intros X. injection X as <-. auto.
Qed.

(* One round. *)
Lemma context_step st cur al out st' cur' al' : lens_ok (s_rest st) -> al_free (para (s_rest st)) ->
  scan_step md props upper None st cur al = Some (out, Some (st', cur', al')) ->
  lens_ok (s_rest st') /\ al_free (para (s_rest st')) /\ (al' = al \/ hasal = true) /\
  (props_ok props -> clz cur <> cNULL -> clz cur' <> cNULL) /\ (clz cur <> cAL -> clz cur' <> cAL) /\
  (out = [] /\ clz cur' = clz cur /\ sctx cur' = sctx cur /\ sl cur' = sl cur /\ clz cur <> cNULL /\ s_ctx st' = s_ctx st \/
   out = (if clz cur =? cNULL then [] else [cur]) /\ sl cur' = sr cur /\
   (clz cur = cNULL -> forall r len rest, para (s_rest st) = (r, len) :: rest -> eff r <> cNSM -> props_ok props -> clz cur' <> cNULL) /\
   sctx cur' = sctx (inheritStrongTypes cur' (with_ctx cur (fst (restored (rev (s_ctx st)) cur cur'))) al) /\
   rev (s_ctx st') = snd (restored (rev (s_ctx st)) cur cur')).
Proof.
  intros L F H. unfold scan_step in H. destruct (nextRune md props None st (sr cur)) as [inp st1] eqn:EN.
  cbn [nextRune] in EN. destruct (read_rune_spec md props upper _ _ _ EN L) as (_ & C1 & L1 & _ & _ & RR).
  destruct inp as [[[r len] c]|]; [|destruct (if isisolate cur then _ else _); discriminate].
  destruct RR as (R1 & R2 & R3). rewrite R3 in H. set (la := mks (applyRulesW1to3 (eff r) cur) (sr cur) (u32 (sr cur + len)) dc0 []) in H.
  assert (F1 : al_free (para (s_rest st1)) /\ (hasal = false -> eff r <> cAL)).
  { split; intros X; specialize (F X); rewrite R2 in F; unfold classes_of in F; cbn [map fst] in F; inversion F; auto. }
  destruct F1 as [F1 F2].
  assert (NL : props_ok props -> clz cur <> cNULL -> clz la <> cNULL).
  { intros PO N. apply apply_null; auto. apply eff_null; auto. }
  assert (NAL : clz cur <> cAL -> clz la <> cAL).
  { intros N. change (clz la) with (applyRulesW1to3 (eff r) cur). clear - N. unfold applyRulesW1to3.
    destruct (eff r =? cNSM).
    - destruct (clz cur =? cLRI); [discriminate|]. destruct (clz cur =? cRLI); [discriminate|]. destruct (clz cur =? cPDI); [discriminate|exact N].
    - destruct (_ && _); [discriminate|]. destruct (Z.eqb_spec (eff r) cAL); [discriminate|]. destruct (_ || _); [discriminate|auto]. }
  destruct (finished cur la) eqn:FI.
  - destruct (if negb (clz cur =? cNULL) && isisolate cur then handleIsolatingRunSwitch st1 cur else Some st1) as [st2|] eqn:E2; [|discriminate].
    cbn [obind] in H.
    assert (K2 : s_rest st2 = s_rest st1 /\ s_ctx st2 = s_ctx st1).
    { destruct (_ && _); [apply (switch_keeps _ _ _ E2)|injection E2 as <-; auto]. }
    destruct K2 as [K2 K3]. pose proof (restored_code st2 cur la) as RC. cbv zeta in RC.
    destruct (if isisolate la && negb (clz la =? cPDI) then _ else _) as [st3 cur3]. cbn [fst snd] in RC.
    destruct RC as (Q1 & _ & _ & Q2 & Q3). subst cur3. rewrite K3, C1 in Q3, H.
    set (x := inheritStrongTypes la _ al) in H. unfold prepareRuleBD16 in H.
    assert (E : exists st4, s_rest st4 = s_rest st1 /\ s_ctx st4 = s_ctx st3 /\
       Some (if clz cur =? cNULL then [] else [cur], Some (st4, x, if eff r =? cAL then sl x else al)) = Some (out, Some (st', cur', al'))).
    { destruct (negb (isbracket x)); [exists st3; split; [congruence|auto]|].
      destruct (nth_error (s_hs st3) (s_bd st3)); [|discriminate]. cbn [obind] in H.
      match type of H with Some (_, Some (?s4, _, _)) = _ => exists s4 end. split; [exact (eq_trans Q1 K2)|auto]. }
    destruct E as (st4 & X1 & X2 & X3). clear H. injection X3 as <- <- <- <-.
    split; [rewrite X1; auto|]. split; [rewrite X1; auto|].
    split. { destruct (Z.eqb_spec (eff r) cAL) as [Y|Y]; [|auto]. right. destruct hasal; auto. elim (F2 eq_refl Y). }
    split; [exact NL|]. split; [exact NAL|]. right. split; [reflexivity|]. split; [reflexivity|].
    split.
    { intros N r' len' rest' EP NS PO. rewrite EP in R2. injection R2 as -> _ _. change (applyRulesW1to3 (eff r) cur <> cNULL).
      apply apply_null; auto. apply eff_null; auto. }
    split; [|rewrite X2, Q3; reflexivity]. reflexivity.
  - injection H as <- <- <- <-. unfold finished in FI. repeat (apply orb_false_iff in FI; destruct FI as [FI ?]).
    apply Z.eqb_neq in FI. split; auto. split; auto. split; auto. split; [auto|]. split; [auto|]. left. cbn [collapse clz sctx sl]. repeat (split; [auto|]). exact C1.
Qed.

Lemma step_end st cur al out : scan_step md props upper None st cur al = Some (out, None) -> out = [cur; stopper].
Proof.
  unfold scan_step. destruct (nextRune md props None st (sr cur)) as [[[[r len] c]|] st1].
  - destruct (finished _ _); [|discriminate]. destruct (if _ && _ then _ else _); [|discriminate]. cbn [obind].
    destruct (if isisolate _ && _ then _ else _) as [st3 cur3]. destruct (prepareRuleBD16 _ _ _); discriminate.
  - destruct (if isisolate cur then _ else _); [|discriminate]. cbn [obind]. intros X. injection X as <-. reflexivity.
Qed.

Lemma restored_eq stk a b b' : clz b = clz b' -> restored stk a b = restored stk a b'.
Proof. intros E. unfold restored. rewrite E. reflexivity. Qed.
Lemma inherit_eq b b' a al : clz b = clz b' -> sctx (inheritStrongTypes b a al) = sctx (inheritStrongTypes b' a al).
Proof. intros E. unfold inheritStrongTypes. cbn [with_ctx sctx]. rewrite E. reflexivity. Qed.
Lemma chain_head stk al a a' t : clz a = clz a' -> sctx a = sctx a' -> sl a = sl a' -> chain hasal stk al (a :: t) -> chain hasal stk al (a' :: t).
Proof.
  intros E1 E2 E3 H. inversion H as [|? ? ? b u al' H1 H2 H4 H3]; subst; [constructor|].
  assert (R : restored stk a' b = restored stk a b) by (unfold restored; rewrite E1, E2; reflexivity).
  apply (chain_cons hasal stk al a' b u al'); auto; rewrite R; auto.
  rewrite H1. unfold inheritStrongTypes. cbn [with_ctx sctx clz sl]. rewrite E1, E3. reflexivity.
Qed.

Lemma contexts_loop (PO : props_ok props) : forall n st cur al out, lens_ok (s_rest st) -> al_free (para (s_rest st)) -> clz cur <> cNULL -> clz cur <> cAL ->
  scan_loop md props upper None n st cur al = Ok out ->
  exists s t, out = (s :: t) ++ [stopper] /\ chain hasal (rev (s_ctx st)) al (s :: t) /\ clz s = clz cur /\ sctx s = sctx cur /\ sl s = sl cur.
Proof.
  induction n as [|n IH]; intros st cur al out L F NN NA H; [discriminate|]. cbn [scan_loop] in H.
  destruct (scan_step md props upper None st cur al) as [[o [[[st' cur'] al']|]]|] eqn:E; try discriminate; cbn [lift rbind] in H.
  - destruct (context_step _ _ _ _ _ _ _ L F E) as (L' & F' & A & NN' & NA' & CS). specialize (NN' PO NN). specialize (NA' NA).
    destruct (scan_loop md props upper None n st' cur' al') as [more| |] eqn:EM; try discriminate. cbn [rbind] in H. injection H as <-.
    destruct (IH _ _ _ _ L' F' NN' NA' EM) as (s & t & -> & CH & S1 & S2 & S3).
    destruct CS as [(-> & C1 & C2 & C3 & _ & C5)|(-> & C1 & _ & C2 & C3)].
    + exists s, t. split; [reflexivity|]. rewrite C5 in CH. split; [|split; [congruence|split; congruence]].
      assert (AE : al' = al).
      { revert E. unfold scan_step. destruct (nextRune _ _ _ _ _) as [[[[r len] c]|] st1]; [|destruct (if isisolate cur then _ else _); discriminate].
        destruct (finished _ _); [|intros X; injection X as <- <- <-; reflexivity].
        destruct (if _ && _ then _ else _); [|discriminate]. cbn [obind]. destruct (if isisolate _ && _ then _ else _) as [st3 cur3].
        destruct (prepareRuleBD16 _ _ _); [|discriminate]. cbn [obind]. intros X. injection X as X _ _ _.
        apply Z.eqb_neq in NN. rewrite NN in X. discriminate X. }
      rewrite AE in CH. exact CH.
    + apply Z.eqb_neq in NN. rewrite NN. cbn [app]. exists cur, (s :: t). split; [reflexivity|]. split; auto.
      apply (chain_cons hasal _ _ cur s t al'); auto.
      * rewrite (restored_eq _ cur s cur' S1), (inherit_eq s cur' _ al S1). congruence.
      * congruence.
      * rewrite (restored_eq _ cur s cur' S1), <- C3. exact CH.
  - rewrite (step_end _ _ _ _ E) in H. injection H as <-. exists cur, []. split; [reflexivity|]. split; [constructor|auto].
Qed.

(* All scraps, after the scrap of class NULL with which the scanner begins. *)
Theorem contexts input r len rest out : props_ok props -> lens_ok input -> al_free (para input) ->
  para input = (r, len) :: rest -> eff r <> cNSM -> Scan md props upper None input = Ok out ->
  exists s t, out = (s :: t) ++ [stopper] /\ chain hasal [] (-1) (initialOuterScrap md false :: s :: t).
Proof.
  intros PO L F EP EF H. unfold Scan in H. replace (3 * length input + 4)%nat with (S (3 * length input + 3)) in H by lia. cbn [scan_loop] in H.
  set (cur := initialOuterScrap md false) in *.
  assert (CN : clz cur = cNULL) by (unfold cur, initialOuterScrap; destruct (m_r2l md); reflexivity).
  destruct (scan_step md props upper None (newScanner input) cur (-1)) as [[o [[[st' cur'] al']|]]|] eqn:E; try discriminate; cbn [lift rbind] in H.
  - destruct (context_step (newScanner input) _ _ _ _ _ _ L F E) as (L' & F' & A & _ & NA & CS). specialize (NA ltac:(rewrite CN; discriminate)).
    destruct CS as [(_ & _ & _ & _ & X & _)|(-> & C1 & N' & C2 & C3)]; [contradiction|]. specialize (N' CN r len rest EP EF PO).
    destruct (scan_loop md props upper None _ st' cur' al') as [more| |] eqn:EM; try discriminate. cbn [rbind] in H. injection H as <-.
    destruct (contexts_loop PO _ _ _ _ _ L' F' N' NA EM) as (s & t & -> & CH & S1 & S2 & S3). rewrite CN. exists s, t. split; [reflexivity|].
    apply (chain_cons hasal [] (-1) cur s t al'); auto.
    * rewrite (restored_eq _ cur s cur' S1), (inherit_eq s cur' _ (-1) S1). rewrite S2, C2. reflexivity.
    * congruence.
    * rewrite (restored_eq _ cur s cur' S1). change (@nil dirctx) with (rev (s_ctx (newScanner input))). rewrite <- C3. exact CH.
  - exfalso. apply (f_equal (fun x => match x with Some (_, None) => true | _ => false end)) in E. revert E. unfold scan_step.
    destruct (nextRune _ _ _ _ _) as [inp st1] eqn:EN. cbn [nextRune] in EN.
    destruct (read_rune_spec md props upper _ _ _ EN L) as (_ & _ & _ & _ & _ & RR). destruct inp as [[[r' len'] c]|].
    + destruct (finished _ _); [|discriminate]. destruct (if _ && _ then _ else _); [|discriminate]. cbn [obind].
      destruct (if isisolate _ && _ then _ else _) as [st3 cur3]. destruct (prepareRuleBD16 _ _ _); discriminate.
    + intros _. change (s_rest (newScanner input)) with input in RR. congruence.
Qed.
End Chain.

(* ---- the embedding direction ----
   The direction of the innermost isolate around each run; an initiator and its PDI have the direction of
   their isolate; an FSI leaves the direction as it is. *)
Fixpoint nesting (e : Z) (stk : list Z) (cs : list Z) : list Z :=
  match cs with
  | [] => []
  | c :: t =>
      if c =? cLRI then cL :: nesting cL (e :: stk) t
      else if c =? cRLI then cR :: nesting cR (e :: stk) t
      else if c =? cFSI then e :: nesting e (e :: stk) t
      else e :: if c =? cPDI then match stk with [] => nesting e [] t | x :: r => nesting x r t end else nesting e stk t
  end.
(* No PDI directly before an initiator. *)
Fixpoint apart (cs : list Z) : bool :=
  match cs with
  | c :: ((d :: _) as t) => negb ((c =? cPDI) && initiator d) && apart t
  | _ => true
  end.

Lemma apart_cons c d t : apart (c :: d :: t) = negb ((c =? cPDI) && initiator d) && apart (d :: t).
Proof. reflexivity. Qed.

Lemma inherit_edir b a al : edir (sctx (inheritStrongTypes b a al)) =
  if clz b =? cLRI then cL else if clz b =? cRLI then cR else edir (sctx a).
Proof.
  unfold inheritStrongTypes. cbn [with_ctx sctx]. destruct (clz b =? cLRI); [reflexivity|]. destruct (clz b =? cRLI); [reflexivity|].
  destruct (_ || _); rewrite ?set_strong_edir; [destruct (0 <=? al); rewrite ?set_strong_edir; reflexivity|].
  destruct (_ || _); rewrite ?set_strong_edir; [destruct (0 <=? al); rewrite ?set_strong_edir; reflexivity|].
  destruct (clz a =? cAL); rewrite ?set_strong_edir; destruct (0 <=? al); rewrite ?set_strong_edir; reflexivity.
Qed.

Lemma chain_nesting hasal : forall t stk al a e stk', chain hasal stk al (a :: t) -> apart (clz a :: map clz t) = true ->
  (if clz a =? cPDI then match stk with [] => e = edir (sctx a) /\ stk' = [] | x :: r => e = edir x /\ stk' = map edir r end
   else e = edir (sctx a) /\ stk' = map edir stk) ->
  map (fun s => edir (sctx s)) t = nesting e stk' (map clz t).
Proof.
  induction t as [|b t IH]; intros stk al a e stk' H AP M; [reflexivity|]. inversion H as [|? ? ? ? ? al' H1 H2 H4 H3]; subst.
  cbn [map] in AP. rewrite apart_cons in AP. apply andb_true_iff in AP. destruct AP as [AP1 AP2]. apply negb_true_iff in AP1.
  cbn [map nesting]. rewrite H1, inherit_edir. cbn [with_ctx sctx]. pose proof (inherit_edir b (with_ctx a (fst (restored stk a b))) al) as ED. rewrite <- H1 in ED. cbn [with_ctx sctx] in ED.
  unfold restored in *. unfold initiator in *.
  destruct (Z.eqb_spec (clz b) cLRI) as [E1|E1].
  { cbn [orb fst snd] in *. rewrite andb_true_r in AP1. rewrite AP1 in M. destruct M as [-> ->]. f_equal. apply (IH _ _ _ _ _ H3 AP2). rewrite E1. cbn. rewrite ED. auto. }
  destruct (Z.eqb_spec (clz b) cRLI) as [E2|E2].
  { cbn [orb fst snd] in *. rewrite andb_true_r in AP1. rewrite AP1 in M. destruct M as [-> ->]. f_equal. apply (IH _ _ _ _ _ H3 AP2). rewrite E2. cbn. rewrite ED. auto. }
  destruct (Z.eqb_spec (clz b) cFSI) as [E3|E3].
  { cbn [orb fst snd] in *. rewrite andb_true_r in AP1. rewrite AP1 in M. destruct M as [-> ->]. f_equal. apply (IH _ _ _ _ _ H3 AP2). rewrite E3. cbn. rewrite ED. auto. }
  cbn [orb] in *.
  set (p := if clz a =? cPDI then match stk with [] => (sctx a, []) | x :: r => (x, r) end else (sctx a, stk)) in *.
  assert (X : e = edir (fst p) /\ stk' = map edir (snd p)).
  { unfold p. destruct (clz a =? cPDI); [|exact M]. destruct stk as [|x r]; exact M. }
  destruct X as [-> ->]. f_equal. destruct (clz b =? cPDI) eqn:EP.
  - destruct (snd p) as [|x r] eqn:ES; cbn [map]; apply (IH _ _ _ _ _ H3 AP2); rewrite EP; auto.
  - apply (IH _ _ _ _ _ H3 AP2). rewrite EP. auto.
Qed.

(* ---- texts without isolates and AL ---- *)
Definition plain_run (s : scrap) : Prop := isisolate s = false.
(* The last strong class, [s] at the beginning. *)
Definition last_strong (s : Z) (cs : list Z) : Z := fold_left (fun s c => if c =? cL then cL else if c =? cR then cR else s) cs s.
(* The position of the last run of class [c]. *)
Definition last_pos (c : Z) (m : Z) (l : list scrap) : Z := fold_left (fun m s => if clz s =? c then sl s else m) l m.

Definition bare (d : dirctx) (a : scrap) : dirctx :=
  if clz a =? cL then set_strong d cL (sl a) else if clz a =? cR then set_strong d cR (sl a) else d.
Lemma chain_bare stk a b t : chain false stk (-1) (a :: b :: t) -> plain_run a -> plain_run b -> clz a <> cAL ->
  sctx b = bare (sctx a) a /\ clz b <> cAL /\ chain false stk (-1) (b :: t).
Proof.
  intros H PA PB NA. inversion H as [|? ? ? ? ? al' H1 H2 H4 H3]; subst.
  unfold plain_run, isisolate in PA, PB. repeat (apply orb_false_iff in PA; destruct PA as [PA ?]). repeat (apply orb_false_iff in PB; destruct PB as [PB ?]).
  assert (X : restored stk a b = (sctx a, stk)).
  { unfold restored. unfold initiator. repeat match goal with X : (_ =? _) = false |- _ => rewrite X end. reflexivity. }
  rewrite X in *. cbn [fst snd] in *. destruct H2 as [->|?]; [|discriminate]. split; [|auto]. rewrite H1.
  unfold inheritStrongTypes, bare. cbn [with_ctx sctx clz sl]. apply Z.eqb_neq in NA. rewrite NA.
  repeat match goal with X : (_ =? _) = false |- _ => rewrite X end. rewrite !orb_false_r. change (0 <=? -1) with false. reflexivity.
Qed.

(* What is known of a context at position [at_]: last match [m], and the last opposite [q] after it. *)
Definition knows (e : Z) (s m : Z) (q : option Z) (at_ : Z) (d : dirctx) : Prop :=
  edir d = e /\ strong d = s /\ mpos d = m /\ 0 <= m <= at_ /\ (0 < m -> m < at_) /\ 0 <= odist d <= 65535 /\
  match q with
  | Some p => m < p < at_ /\ odist d = Z.min (p - m) 65535
  | None => odist d = 0 \/ s = e
  end.
Definition next_opp (e m : Z) (q : option Z) (s : scrap) : option Z :=
  if clz s =? e then None else if (clz s =? opposite e) && (m <? sl s) then Some (sl s) else q.

Ltac kn := do 6 (split; [first [assumption | reflexivity | lia]|]).

Lemma bare_knows e s m q a d : e = cL \/ e = cR -> knows e s m q (sl a) d -> sl a < sr a -> sr a < 2 ^ 32 -> (sl a = 0 -> odist d = 0) ->
  knows e (last_strong s [clz a]) (last_pos e m [a]) (next_opp e m q a) (sr a) (bare d a).
Proof.
  intros E (K1 & K2 & K3 & K4 & K5 & K6 & K7) LT BD FI. unfold last_strong, last_pos, next_opp, bare. cbn [fold_left].
  assert (OP : opposite e = (if e =? cL then cR else cL)) by (destruct E as [-> | ->]; reflexivity).
  assert (OD : u32 (sl a - m) = sl a - m) by (unfold u32; apply Z.mod_small; lia).
  assert (SAME : clz a = e -> knows e e (sl a) None (sr a) (set_strong d e (sl a))).
  { intros X. unfold set_strong. rewrite K1, K3. assert (Y : negb ((e =? cL) || (e =? cR) || (e =? cAL) || (e =? cNI)) = false) by (destruct E as [-> | ->]; reflexivity).
    rewrite Y, Z.eqb_refl. cbn [andb]. destruct (Z.ltb_spec m (sl a)).
    - unfold knows. cbn [edir strong mpos odist]. kn. auto.
    - assert (Z0 : (e =? opposite e) = false) by (destruct E as [-> | ->]; reflexivity). rewrite Z0. cbn [andb].
      assert (m = sl a) by lia. unfold knows. cbn [edir strong mpos odist]. kn. auto. }
  assert (OPP : clz a = opposite e -> knows e (opposite e) m (if m <? sl a then Some (sl a) else q) (sr a) (set_strong d (opposite e) (sl a))).
  { intros X. unfold set_strong. rewrite K1, K3. assert (Y : negb ((opposite e =? cL) || (opposite e =? cR) || (opposite e =? cAL) || (opposite e =? cNI)) = false) by (destruct E as [-> | ->]; reflexivity).
    assert (Z0 : (opposite e =? e) = false) by (destruct E as [-> | ->]; reflexivity).
    rewrite Y, Z0, Z.eqb_refl. cbn [andb]. rewrite OD. destruct (Z.ltb_spec m (sl a)).
    - unfold knows. cbn [edir strong mpos odist]. kn. split; [lia|reflexivity].
    - assert (m = sl a) by lia. assert (sl a = 0) by lia. unfold knows. cbn [edir strong mpos odist]. kn.
      destruct q; [lia|]. auto. }
  assert (REST : knows e s m q (sr a) d).
  { unfold knows. kn. destruct q; [|auto]. destruct K7. split; [lia|auto]. }
  clear OP. destruct E as [-> | ->]; [change (opposite cL) with cR in *|change (opposite cR) with cL in *].
  - destruct (Z.eqb_spec (clz a) cL) as [X|X]; [auto|]. destruct (Z.eqb_spec (clz a) cR) as [Y|Y]; cbn [andb]; auto.
  - destruct (Z.eqb_spec (clz a) cL) as [X|X].
    + rewrite X in *. change (cL =? cR) with false. cbn [andb]. auto.
    + destruct (Z.eqb_spec (clz a) cR) as [Y|Y]; cbn [andb]; auto.
Qed.

Definition opps (e : Z) (mq : Z * option Z) (l : list scrap) : Z * option Z :=
  fold_left (fun mq s => (last_pos e (fst mq) [s], next_opp e (fst mq) (snd mq) s)) l mq.
Lemma opps_cons e m q s l : opps e (m, q) (s :: l) = opps e (if clz s =? e then sl s else m, next_opp e m q s) l.
Proof. reflexivity. Qed.
Lemma opps_fst e : forall l mq, fst (opps e mq l) = last_pos e (fst mq) l.
Proof. induction l as [|s l IH]; intros mq; [reflexivity|]. cbn [opps fold_left]. unfold opps in IH. rewrite IH. reflexivity. Qed.

Lemma chain_knows e : e = cL \/ e = cR -> forall u stk a b v hi s m q, chain false stk (-1) (a :: u ++ b :: v) -> Forall plain_run (a :: u ++ b :: v) -> clz a <> cAL ->
  tiles (sl a) (a :: u ++ b :: v) hi -> Forall (fun s => sl s < sr s) (a :: u) -> hi < 2 ^ 32 -> (sl a = 0 -> odist (sctx a) = 0) ->
  knows e s m q (sl a) (sctx a) ->
  knows e (last_strong s (map clz (a :: u))) (last_pos e m (a :: u)) (snd (opps e (m, q) (a :: u))) (sl b) (sctx b).
Proof.
  intros E. induction u as [|x u IH]; intros stk a b v hi s m q CH F NA T ST HI OD K.
  - cbn [app] in *. inversion F as [|? ? F1 F2]; subst. inversion F2 as [|? ? F3 _]; subst.
    destruct (chain_bare _ _ _ _ CH F1 F3 NA) as (X & _ & _). cbn [tiles] in T. destruct T as (_ & T1 & T2 & T3 & T4). apply tiles_le in T4.
    inversion ST as [|? ? S1 _]; subst. rewrite X. rewrite T2. apply bare_knows; auto; lia.
  - cbn [app] in *. inversion F as [|? ? F1 F2]; subst. pose proof F2 as F2'. inversion F2 as [|? ? F3 _]; subst.
    destruct (chain_bare _ _ _ _ CH F1 F3 NA) as (X & NX & CH'). inversion ST as [|? ? S1 S2]; subst. cbn [tiles] in T. destruct T as (_ & T1 & T2 & T3 & T4). pose proof (tiles_le _ _ _ T4) as TL.
    assert (K' : knows e (last_strong s [clz a]) (last_pos e m [a]) (next_opp e m q a) (sl x) (sctx x)) by (rewrite X, T2; apply bare_knows; auto; lia).
    apply (IH stk x b v hi _ _ _ CH' F2' NX); [split; [reflexivity|split; [rewrite T2; exact T3|exact T4]]|exact S2|exact HI| |exact K'].
    intros Z0. assert (0 <= sl a) by (destruct K as (_ & _ & _ & ? & _); lia). lia.
Qed.

(* ---- brackets ---- *)
Lemma last_pos_in e : forall l m, last_pos e m l = m /\ Forall (fun x => clz x <> e) l \/ exists x, In x l /\ clz x = e /\ last_pos e m l = sl x.
Proof.
  induction l as [|s l IH]; intros m; [left; split; [reflexivity|constructor]|]. cbn [last_pos fold_left]. fold (last_pos e (if clz s =? e then sl s else m) l).
  destruct (IH (if clz s =? e then sl s else m)) as [[-> F]|(x & I & C & ->)].
  - destruct (Z.eqb_spec (clz s) e) as [X|X]; [right; exists s; split; [left; auto|auto]|left; auto].
  - right. exists x. split; [right; auto|auto].
Qed.
Lemma opps_none e l : forall m q, Forall (fun x => clz x <> e /\ clz x <> opposite e) l -> opps e (m, q) l = (m, q).
Proof.
  induction l as [|s l IH]; intros m q F; [reflexivity|]. inversion F as [|? ? [F1 F2] F3]; subst. rewrite opps_cons. unfold next_opp.
  apply Z.eqb_neq in F1, F2. rewrite F1, F2. cbn [andb]. apply IH. auto.
Qed.
(* Without a match the last opposite counts. *)
Lemma opps_opp e l : forall m q lo, Forall (fun x => clz x <> e) l -> Forall (fun x => lo <= sl x) l -> m < lo ->
  Forall (fun x => clz x <> opposite e) l \/ exists x, In x l /\ snd (opps e (m, q) l) = Some (sl x).
Proof.
  induction l as [|s l IH]; intros m q lo F1 F2 LO; [left; constructor|]. inversion F1 as [|? ? A1 A2]; subst. inversion F2 as [|? ? B1 B2]; subst.
  rewrite opps_cons. unfold next_opp. apply Z.eqb_neq in A1. rewrite A1.
  assert (ML : (m <? sl s) = true) by (apply Z.ltb_lt; lia). rewrite ML, andb_true_r.
  destruct (IH m (if clz s =? opposite e then Some (sl s) else q) lo A2 B2 LO) as [X|(x & I & X)].
  - destruct (Z.eqb_spec (clz s) (opposite e)) as [Y|Y]; [|left; auto]. right. exists s. split; [left; auto|].
    rewrite opps_none; [reflexivity|]. rewrite Forall_forall in *. auto.
  - right. exists x. split; [right; auto|exact X].
Qed.
Lemma opps_app e mq a b : opps e mq (a ++ b) = opps e (opps e mq a) b.
Proof. unfold opps. apply fold_left_app. Qed.

(* UAX#9, N0 b to d, for the classes L and R: [s] is the strong class before the pair, [cs] are the classes within. *)
Definition n0 (e s : Z) (cs : list Z) : Z :=
  if existsb (Z.eqb e) cs then e
  else if existsb (Z.eqb (opposite e)) cs then (if s =? opposite e then opposite e else e)
  else cNI.
(* The code: resolver.go:424-447. *)
Definition n0_code (o c : scrap) : Z :=
  if has_match_after c o then se o
  else if has_opposite_after c o then (if dcStrong (sctx o) =? so o then so o else se o)
  else cNI.

Lemma existsb_class e l : existsb (Z.eqb e) (map clz l) = true <-> exists x, In x l /\ clz x = e.
Proof.
  rewrite existsb_exists. split.
  - intros (y & I & E). apply in_map_iff in I. destruct I as (x & <- & I). apply Z.eqb_eq in E. eauto.
  - intros (x & I & E). exists (clz x). split; [apply in_map; auto|]. apply Z.eqb_eq. auto.
Qed.
Lemma existsb_none e l : existsb (Z.eqb e) (map clz l) = false <-> Forall (fun x => clz x <> e) l.
Proof.
  split.
  - intros H. apply Forall_forall. intros x I E. assert (X : existsb (Z.eqb e) (map clz l) = true) by (apply existsb_class; eauto). congruence.
  - intros F. destruct (existsb _ _) eqn:X; [|reflexivity]. apply existsb_class in X. destruct X as (x & I & E). rewrite Forall_forall in F. elim (F x I E).
Qed.

Lemma tiles_bounds : forall l lo hi, tiles lo l hi -> Forall (fun s => lo <= sl s /\ sl s <= sr s /\ sr s <= hi) l.
Proof.
  induction l as [|s l IH]; intros lo hi T; [constructor|]. destruct T as (T1 & T2 & T3). pose proof (tiles_le _ _ _ T3). constructor; [lia|].
  eapply Forall_impl; [|apply (IH _ _ T3)]. cbn. intros x (A & B & C). lia.
Qed.

Theorem n0_pair e f u o w c v hi : e = cL \/ e = cR ->
  chain false [] (-1) (f :: u ++ o :: w ++ c :: v) -> Forall plain_run (f :: u ++ o :: w ++ c :: v) -> clz f <> cAL ->
  tiles 0 (f :: u ++ o :: w ++ c :: v) hi -> Forall (fun s => sl s < sr s) (f :: u ++ o :: w ++ c :: v) -> hi < 65536 ->
  sctx f = mkdc e cL 0 0 -> isbracket o = true ->
  let s := last_strong cL (map clz (f :: u)) in
  let inside := map clz w in
  n0_code o c = n0 e s inside \/
  n0_code o c = e /\ s = e /\ existsb (Z.eqb e) inside = false /\ existsb (Z.eqb (opposite e)) inside = false.
Proof.
  intros E CH F NA T ST HI FC BO. cbv zeta. pose proof (tiles_bounds _ _ _ T) as TB.
  assert (SF : sl f = 0) by (destruct T; auto).
  assert (K0 : knows e cL 0 None (sl f) (sctx f)).
  { rewrite FC, SF. unfold knows. cbn [edir strong mpos odist]. kn. auto. }
  assert (OD : sl f = 0 -> odist (sctx f) = 0) by (rewrite FC; reflexivity).
  assert (STU : Forall (fun s => sl s < sr s) (f :: u)).
  { rewrite app_comm_cons in ST. apply Forall_app in ST. tauto. }
  assert (STW : Forall (fun s => sl s < sr s) (f :: u ++ o :: w)).
  { replace (f :: u ++ o :: w ++ c :: v) with ((f :: u ++ o :: w) ++ c :: v) in ST by (cbn [app]; rewrite <- app_assoc; reflexivity). apply Forall_app in ST. tauto. }
  assert (T1 : tiles (sl f) (f :: u ++ o :: w ++ c :: v) hi) by (rewrite SF; exact T).
  pose proof (chain_knows e E u [] f o (w ++ c :: v) hi cL 0 None CH F NA T1 STU ltac:(lia) OD K0) as KO.
  assert (CH2 : chain false [] (-1) (f :: (u ++ o :: w) ++ c :: v)) by (rewrite <- app_assoc; exact CH).
  assert (F2 : Forall plain_run (f :: (u ++ o :: w) ++ c :: v)) by (rewrite <- app_assoc; exact F).
  assert (T2 : tiles (sl f) (f :: (u ++ o :: w) ++ c :: v) hi) by (rewrite SF, <- app_assoc; exact T).
  pose proof (chain_knows e E (u ++ o :: w) [] f c v hi cL 0 None CH2 F2 NA T2 STW ltac:(lia) OD K0) as KC. clear CH2 F2 T2.
  assert (PO : forall x, In x (f :: u) -> sl x < sl o).
  { rewrite app_comm_cons in T. apply tiles_app in T. destruct T as (mid & TU & TO). cbn [tiles] in TO. destruct TO as (-> & _).
    intros x I. pose proof (tiles_bounds _ _ _ TU) as B. rewrite Forall_forall in B, STU. specialize (B x I). specialize (STU x I). cbn in *. lia. }
  assert (OP0 : 0 < sl o) by (rewrite <- SF; apply PO; left; auto).
  assert (PW : Forall (fun x => sl o <= sl x) w).
  { rewrite app_comm_cons in T. apply tiles_app in T. destruct T as (mid & _ & TO). cbn [tiles] in TO. destruct TO as (-> & TO1 & TO2).
    apply tiles_bounds in TO2. apply Forall_app in TO2. eapply Forall_impl; [|apply TO2]. cbn. intros x (A & _). lia. }
  destruct KO as (O1 & O2 & O3 & O4 & O5 & O6 & O7). destruct KC as (C1 & C2 & C3 & C4 & C5 & C6 & C7).
  assert (NO : clz o <> e /\ clz o <> opposite e).
  { unfold isbracket in BO. apply orb_true_iff in BO. destruct BO as [X|X]; apply Z.eqb_eq in X; rewrite X; destruct E as [-> | ->]; split; discriminate. }
  set (m := last_pos e 0 (f :: u)) in *. set (q := snd (opps e (0, None) (f :: u))) in *.
  assert (MO : m < sl o).
  { unfold m. destruct (last_pos_in e (f :: u) 0) as [[-> _]|(x & I & _ & ->)]; [lia|apply PO; auto]. }
  assert (EQ : opps e (0, None) (f :: u) = (m, q)).
  { unfold q, m. rewrite (surjective_pairing (opps e (0, None) (f :: u))) at 1. rewrite opps_fst. reflexivity. }
  assert (OW : opps e (0, None) (f :: u ++ o :: w) = opps e (m, q) w).
  { change (f :: u ++ o :: w) with ((f :: u) ++ [o] ++ w). rewrite !opps_app, EQ. rewrite (opps_none e [o]); [reflexivity|]. constructor; auto. }
  assert (MC : last_pos e 0 (f :: u ++ o :: w) = last_pos e m w).
  { pose proof (f_equal fst OW) as X. rewrite !opps_fst in X. exact X. }
  rewrite MC in *. rewrite OW in C7.
  assert (SE : se o = e) by exact O1.
  assert (SO : so o = opposite e) by (unfold so; rewrite O1; reflexivity).
  assert (STO : dcStrong (sctx o) = last_strong cL (map clz (f :: u))).
  { unfold dcStrong. rewrite O2. assert (X : last_strong cL (map clz (f :: u)) = cL \/ last_strong cL (map clz (f :: u)) = cR).
    { generalize (map clz (f :: u)). assert (Y : forall l s, s = cL \/ s = cR -> last_strong s l = cL \/ last_strong s l = cR).
      { induction l as [|y l IHl]; intros s0 Hs; [exact Hs|]. cbn [last_strong fold_left]. apply IHl. destruct (y =? cL); auto. destruct (y =? cR); auto. }
      intros l. apply Y. auto. }
    destruct X as [X|X]; rewrite X; reflexivity. }
  unfold n0_code. rewrite SE, SO, STO. unfold has_match_after, has_opposite_after. rewrite C3. unfold n0.
  assert (CB : sl c <= hi).
  { rewrite Forall_forall in TB. destruct (TB c) as (A & B & D); [right; apply in_app_iff; right; right; apply in_app_iff; right; left; auto|]. lia. }
  destruct (last_pos_in e w m) as [[LP NM]|(x & I & CX & LP)].
  - (* no match *)
    rewrite LP in *. assert (X : existsb (Z.eqb e) (map clz w) = false) by (apply existsb_none; auto). rewrite X.
    destruct (Z.leb_spec (sl o) m); [lia|].
    assert (U : u32 (m + odist (sctx c)) = m + odist (sctx c)) by (unfold u32; apply Z.mod_small; lia). rewrite U.
    destruct (opps_opp e w m q (sl o) NM PW MO) as [NP|(x & I & SX)].
    + assert (Y : existsb (Z.eqb (opposite e)) (map clz w) = false) by (apply existsb_none; auto). rewrite Y.
      rewrite opps_none in C7. 2: { rewrite Forall_forall in *. auto. }
      cbn [snd] in C7. destruct q as [p|].
      * destruct C7 as [_ C7]. destruct O7 as [O7 _]. destruct (Z.leb_spec (sl o) (m + odist (sctx c))); [lia|left; reflexivity].
      * destruct (Z.leb_spec (sl o) (m + odist (sctx c))) as [LE|_]; [|left; reflexivity]. right.
        assert (SS : last_strong cL (map clz (f :: u ++ o :: w)) = last_strong cL (map clz (f :: u))).
        { change (f :: u ++ o :: w) with ((f :: u) ++ o :: w). rewrite map_app. unfold last_strong. rewrite fold_left_app.
          set (s := fold_left _ (map clz (f :: u)) cL). assert (Z0 : forall l, Forall (fun x => clz x <> e /\ clz x <> opposite e) l -> fold_left (fun s c => if c =? cL then cL else if c =? cR then cR else s) (map clz l) s = s).
          { clear - E. induction l as [|y l IHl]; intros Fl; [reflexivity|]. inversion Fl as [|? ? [G1 G2] G3]; subst. cbn [map fold_left].
            assert (clz y <> cL /\ clz y <> cR) as [H1 H2] by (destruct E as [-> | ->]; cbn in G2; auto). apply Z.eqb_neq in H1, H2. rewrite H1, H2. auto. }
          apply Z0. constructor; auto. rewrite Forall_forall in *. auto. }
        rewrite SS in C7. destruct C7 as [C7|C7]; [lia|]. split; [|auto].
        rewrite C7. destruct E as [-> | ->]; reflexivity.
    + assert (Y : existsb (Z.eqb (opposite e)) (map clz w) = true).
      { destruct (existsb (Z.eqb (opposite e)) (map clz w)) eqn:Y; [reflexivity|]. exfalso. apply existsb_none in Y.
        rewrite opps_none in SX by (rewrite Forall_forall in *; auto). cbn [snd] in SX. rewrite Forall_forall in PW. specialize (PW x I). rewrite SX in O7. lia. }
      rewrite Y. rewrite SX in C7. destruct C7 as [C7 C8]. rewrite Forall_forall in PW. specialize (PW x I).
      destruct (Z.leb_spec (sl o) (m + odist (sctx c))); [left; reflexivity|]. exfalso. lia.
  - (* a match *)
    assert (X : existsb (Z.eqb e) (map clz w) = true) by (apply existsb_class; eauto). rewrite X. rewrite LP. rewrite Forall_forall in PW. specialize (PW x I).
    destruct (Z.leb_spec (sl o) (sl x)); [left; reflexivity|lia].
Qed.

(* ---- texts ---- *)
Section Texts.
Context (md : mode) (props : Z -> Z * Z) (upper : Z -> bool).
Notation eff := (eff md props upper).
Notation para := (para md props).
Notation classes := (classes_of md props upper).

Lemma initial_context : sctx (initialOuterScrap md false) = mkdc (outer md) cL 0 0 /\ clz (initialOuterScrap md false) = cNULL /\ sl (initialOuterScrap md false) = 0.
Proof. unfold initialOuterScrap, outer. destruct (m_r2l md); auto. Qed.

Theorem scan_nesting input r len rest ss : props_ok props -> lens_ok input ->
  para input = (r, len) :: rest -> eff r <> cNSM -> Scan md props upper None input = Ok (ss ++ [stopper]) ->
  apart (map clz ss) = true ->
  map (fun s => edir (sctx s)) ss = nesting (outer md) [] (map clz ss).
Proof.
  intros PO L EP EF E AP. destruct (contexts md props upper true input r len rest _ PO L ltac:(discriminate) EP EF E) as (s & t & EQ & CH).
  apply app_inj_tail in EQ. destruct EQ as [-> _]. destruct initial_context as (I1 & I2 & _).
  apply (chain_nesting true (s :: t) [] (-1) (initialOuterScrap md false)); [exact CH| |].
  - rewrite I2. exact AP.
  - rewrite I2, I1. split; reflexivity.
Qed.

(* No isolate characters and no AL; every character has a length. *)
Definition simple (l : list (Z * Z)) : Prop := Forall (fun c => is_isolate c = false /\ c <> cAL) (classes l) /\ Forall (fun x => 0 < snd x) l.

Lemma scan_simple input r len rest : props_ok props -> lens_ok input -> total (para input) < 2 ^ 32 ->
  para input = (r, len) :: rest -> eff r <> cNSM -> simple (para input) ->
  exists ss, Scan md props upper None input = Ok (ss ++ [stopper]) /\ tiles 0 ss (total (para input)) /\
    Forall (fun s => clz s <> cNULL /\ plain_run s /\ sl s < sr s) ss.
Proof.
  intros PO L B EP EF [S1 S2].
  set (I := fun (st : scst) (cur : scrap) (_ : Z) => simple (para (s_rest st)) /\ plain_run cur /\ (clz cur = cNULL \/ sl cur < sr cur)).
  set (Q := fun s => plain_run s /\ sl s < sr s).
  assert (EX : exported I Q).
  { intros st cur al (_ & P & [X|X]) N; [contradiction|]. split; auto. }
  assert (PR : preserved md props upper None I (fun _ _ => True)).
  { intros st cur al r0 len0 c st1 out st' cur' al' ([A1 A2] & P & PL) FT RD R1 LN.
    destruct FT as [(F1 & F2 & F3)|(X & _)]; [|congruence]. rewrite F3 in RD. rewrite F2 in A1, A2. unfold classes_of in A1. cbn [map fst] in A1.
    inversion A1 as [|? ? [B1 B2] B3]; subst. inversion A2 as [|? ? C1 C2]; subst. cbn [snd] in C1.
    assert (SI : simple (para (s_rest st'))) by (rewrite R1; split; auto).
    assert (PA : is_isolate (applyRulesW1to3 (eff r0) cur) = false).
    { unfold applyRulesW1to3. destruct (eff r0 =? cNSM).
      - destruct (clz cur =? cLRI); [reflexivity|]. destruct (clz cur =? cRLI); [reflexivity|]. destruct (clz cur =? cPDI); [reflexivity|exact P].
      - destruct (_ && _); [reflexivity|]. destruct (eff r0 =? cAL); [reflexivity|]. destruct ((eff r0 =? cS) || (eff r0 =? cWS) || (eff r0 =? cON)); [reflexivity|exact B1]. }
    destruct RD as (_ & _ & [(-> & -> & Y1 & Y2 & _)|(_ & _ & (d & _ & ->) & _)]).
    - split; [|split; [auto|congruence]]. split; [exact SI|]. split; [exact P|]. right. cbn [collapse la_of sl sr]. destruct PL as [X|X]; [contradiction|]. lia.
    - split; [|split; [|auto]].
      + split; [exact SI|]. split; [exact PA|]. right. cbn. lia.
      + intros N. change (applyRulesW1to3 (eff r0) cur <> cNULL). apply apply_null; auto. apply eff_null; auto. }
  destruct (scan_from_start md props upper None I Q (fun _ _ => True) input r len rest PR EX PO) as (ss & E & T & F & _); auto.
  { split; [split; auto|]. destruct initial_context as (_ & X & _). split; [unfold plain_run, isisolate; rewrite X; reflexivity|auto]. }
  exists ss. auto.
Qed.

Lemma simple_al input : simple (para input) -> al_free md props upper false (para input).
Proof. intros [S1 _] _. eapply Forall_impl; [|exact S1]. cbn. tauto. Qed.

(* The strong class of every context. *)
Theorem scan_strong input r len rest : props_ok props -> lens_ok input -> total (para input) < 2 ^ 32 ->
  para input = (r, len) :: rest -> eff r <> cNSM -> simple (para input) ->
  exists ss, Scan md props upper None input = Ok (ss ++ [stopper]) /\
    forall u s v, ss = u ++ s :: v -> edir (sctx s) = outer md /\ dcStrong (sctx s) = last_strong cL (map clz u).
Proof.
  intros PO L B EP EF SI. destruct (scan_simple input r len rest PO L B EP EF SI) as (ss & E & T & F). exists ss. split; [exact E|].
  destruct (contexts md props upper false input r len rest _ PO L (simple_al _ SI) EP EF E) as (s0 & t & EQ & CH).
  apply app_inj_tail in EQ. destruct EQ as [-> _]. destruct initial_context as (I1 & I2 & I3).
  assert (P0 : plain_run (initialOuterScrap md false)) by (unfold plain_run, isisolate; rewrite I2; reflexivity).
  assert (G : forall u stk a b v, chain false stk (-1) (a :: u ++ b :: v) -> clz a <> cAL -> plain_run a -> Forall plain_run (u ++ b :: v) -> (strong (sctx a) = cL \/ strong (sctx a) = cR) ->
     edir (sctx b) = edir (sctx a) /\ strong (sctx b) = last_strong (strong (sctx a)) (clz a :: map clz u) /\ (strong (sctx b) = cL \/ strong (sctx b) = cR)).
  { clear. induction u as [|x u IH]; intros stk a b v CH NA PA F S.
    - cbn [app] in *. inversion F as [|? ? F1 _]; subst. destruct (chain_bare _ _ _ _ CH PA F1 NA) as (X & _). rewrite X. unfold bare, last_strong. cbn [map fold_left].
      destruct (clz a =? cL); [rewrite set_strong_edir, set_strong_L; auto|]. destruct (clz a =? cR); [rewrite set_strong_edir, set_strong_R; auto|auto].
    - cbn [app] in *. inversion F as [|? ? F1 F2]; subst. destruct (chain_bare _ _ _ _ CH PA F1 NA) as (X & NX & CH').
      assert (Y : edir (sctx x) = edir (sctx a) /\ strong (sctx x) = last_strong (strong (sctx a)) [clz a] /\ (strong (sctx x) = cL \/ strong (sctx x) = cR)).
      { rewrite X. unfold bare, last_strong. cbn [fold_left]. destruct (clz a =? cL); [rewrite set_strong_edir, set_strong_L; auto|]. destruct (clz a =? cR); [rewrite set_strong_edir, set_strong_R; auto|auto]. }
      destruct Y as (Y1 & Y2 & Y3). destruct (IH stk x b v CH' NX F1 F2 Y3) as (Z1 & Z2 & Z3). split; [congruence|]. split; [|exact Z3]. rewrite Z2, Y2. reflexivity. }
  intros u s v EU. rewrite EU in CH, F. assert (NA : clz (initialOuterScrap md false) <> cAL) by (rewrite I2; discriminate).
  assert (FP : Forall plain_run (u ++ s :: v)) by (eapply Forall_impl; [|exact F]; cbn; tauto).
  destruct (G u [] _ s v CH NA P0 FP) as (G1 & G2 & G3); [rewrite I1; auto|]. rewrite I1 in G1, G2. rewrite I2 in G2. cbn [edir strong] in G1, G2. split; [exact G1|].
  unfold dcStrong. transitivity (strong (sctx s)); [destruct G3 as [-> | ->]; reflexivity|exact G2].
Qed.

(* Brackets. *)
Theorem scan_n0 input r len rest : props_ok props -> lens_ok input -> total (para input) < 65536 ->
  para input = (r, len) :: rest -> eff r <> cNSM -> simple (para input) ->
  exists ss, Scan md props upper None input = Ok (ss ++ [stopper]) /\
    forall u o w c v, ss = u ++ o :: w ++ c :: v -> isbracket o = true ->
      let e := outer md in
      let s := match u with [] => e | _ => last_strong cL (map clz u) end in
      let inside := map clz w in
      n0_code o c = n0 e s inside \/
      n0_code o c = e /\ s = e /\ existsb (Z.eqb e) inside = false /\ existsb (Z.eqb (opposite e)) inside = false.
Proof.
  intros PO L B EP EF SI. destruct (scan_simple input r len rest PO L ltac:(lia) EP EF SI) as (ss & E & T & F). exists ss. split; [exact E|].
  destruct (contexts md props upper false input r len rest _ PO L (simple_al _ SI) EP EF E) as (s0 & t & EQ & CH).
  apply app_inj_tail in EQ. destruct EQ as [-> _]. destruct initial_context as (I1 & I2 & I3).
  assert (OE : outer md = cL \/ outer md = cR) by (unfold outer; destruct (m_r2l md); auto).
  assert (P0 : plain_run (initialOuterScrap md false)) by (unfold plain_run, isisolate; rewrite I2; reflexivity).
  intros u o w c v EU BO. cbv zeta. rewrite EU in CH, F, T.
  assert (FP : Forall plain_run (u ++ o :: w ++ c :: v)) by (eapply Forall_impl; [|exact F]; cbn; tauto).
  assert (FS : Forall (fun s => sl s < sr s) (u ++ o :: w ++ c :: v)) by (eapply Forall_impl; [|exact F]; cbn; tauto).
  destruct u as [|f u].
  - cbn [app] in *. clear EU. inversion FP as [|? ? FP1 _]; subst. assert (NA : clz (initialOuterScrap md false) <> cAL) by (rewrite I2; discriminate).
    destruct (chain_bare _ _ _ _ CH P0 FP1 NA) as (X & NO & CH'). unfold bare in X. rewrite I2, I1 in X. cbn in X.
    assert (MC : 0 <= mpos (sctx c)).
    { assert (SO : sl o = 0) by (destruct T; auto).
      assert (K0 : knows (outer md) cL 0 None (sl o) (sctx o)) by (rewrite X, SO; unfold knows; cbn [edir strong mpos odist]; kn; auto).
      assert (T' : tiles (sl o) (o :: w ++ c :: v) (total (para input))) by (rewrite SO; exact T).
      assert (FW : Forall (fun s => sl s < sr s) (o :: w)) by (rewrite app_comm_cons in FS; apply Forall_app in FS; tauto).
      assert (OD : sl o = 0 -> odist (sctx o) = 0) by (rewrite X; reflexivity).
      destruct (chain_knows (outer md) OE w [] o c v _ cL 0 None CH' FP NO T' FW ltac:(lia) OD K0) as (_ & _ & K3 & K4 & _). lia. }
    unfold n0_code, has_match_after. destruct T as (T1 & _). rewrite T1. destruct (Z.leb_spec 0 (mpos (sctx c))); [|lia]. unfold se. rewrite X. cbn [edir].
    unfold n0. destruct (existsb (Z.eqb (outer md)) (map clz w)); [auto|]. destruct (existsb _ _); [|right; auto].
    left. destruct OE as [-> | ->]; reflexivity.
  - cbn [app] in *. assert (NA : clz (initialOuterScrap md false) <> cAL) by (rewrite I2; discriminate).
    inversion FP as [|? ? FP1 _]; subst.
    destruct (chain_bare _ _ _ _ CH P0 FP1 NA) as (X & NF & CH'). unfold bare in X. rewrite I2, I1 in X. cbn in X.
    exact (n0_pair (outer md) f u o w c v _ OE CH' FP NF T FS B X BO).
Qed.
End Texts.
