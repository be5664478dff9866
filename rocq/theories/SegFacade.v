(* SegFacade.v -- whole sessions of the segmenter: construct, initialise, iterate, re-use. *)
From Coq Require Import List ZArith Lia Bool.
From Verif Require Import Base RuneWrite Segmenter SegSpec PrioQProofs SegProofs SegInv SegNext SegCut SegSim.
From Verif Require Deque.
Import ListNotations.
Open Scope Z_scope.

(* ---- client histories ---- *)
Inductive op :=
| OInit (rd : reader) | OSlice (b : list Z) | OCall (c : call) | OBoz (b0 b1 : bool)
| OBuffer (buf : list Z) (cap max : Z).

Section History.
Context {Q : Type} (O : qops Q) {B : Type} (bstep : B -> Z -> B * Z * list Z).
Definition apply_op (o : op) (s : state Q B) : res (state Q B) :=
  match o with
  | OInit rd => Init O rd s
  | OSlice b => InitFromSlice O b s
  | OCall c => let* (_, s') := next O bstep (bound_of c) s in Ok s'
  | OBoz b0 b1 => Ok (BreakOnZero b0 b1 s)
  | OBuffer buf cap max => RuneBuffer buf cap max s
  end.
Fixpoint history (os : list op) (s : state Q B) : res (state Q B) :=
  match os with [] => Ok s | o :: r => let* s' := apply_op o s in history r s' end.
End History.
(* cap of a Go slice is at least its length *)
Definition op_ok (o : op) : Prop := match o with OBuffer buf cap _ => zlen buf <= cap | _ => True end.

Section SimH.
Context {B : Type} (bstep : B -> Z -> B * Z * list Z).
Lemma sim_op o (s : state (@Deque.deque atom) B) t : ssim s t ->
  rrel ssim (apply_op deque_ops bstep o s) (apply_op list_ops bstep o t).
Proof.
  intros S. destruct o; cbn [apply_op].
  - now apply sim_Init.
  - now apply sim_InitFromSlice.
  - eapply rrel_bind; [now apply sim_next|]. intros [b s'] [b' t'] [_ H]. exact H.
  - now apply sim_boz.
  - now apply sim_RuneBuffer.
Qed.
Lemma sim_history : forall os (s : state (@Deque.deque atom) B) t, ssim s t ->
  rrel ssim (history deque_ops bstep os s) (history list_ops bstep os t).
Proof.
  induction os as [|o os IH]; intros s t S; cbn [history]; auto.
  eapply rrel_bind; [now apply sim_op|]. intros; now apply IH.
Qed.
End SimH.

(* ---- well-formed buffers ---- *)
Definition wf_rw (w : runewrite) : Prop := zlen (output w) <= outcap w.
Lemma wf_write w r : wf_rw w -> wf_rw (fst (WriteRune w r)).
Proof.
  unfold wf_rw, WriteRune. intros H. destruct (backing w); cbn; auto.
  destruct (Z.eqb_spec (outcap w) (zlen (output w))).
  - rewrite Z.geb_leb. destruct (Z.leb_spec (maxSegLen w) (outcap w)); cbn; auto.
    rewrite Z.gtb_ltb. unfold startBufSize.
    destruct (Z.ltb_spec (maxSegLen w) (Z.max (outcap w + 4096) (zlen (output w) + 1)));
      rewrite zlen_app; unfold zlen in *; cbn; lia.
  - cbn. rewrite zlen_app. unfold zlen in *; cbn; lia.
Qed.
Lemma wf_writes : forall l w, wf_rw w -> wf_rw (writes w l).
Proof. unfold writes. induction l; intros; simpl; auto. apply IHl. now apply wf_write. Qed.
Lemma wf_mark w : wf_rw w -> wf_rw (SetMark w).
Proof. unfold wf_rw, SetMark, zlen. destruct (backing w); cbn; lia. Qed.
Lemma wf_reset w b : wf_rw w -> wf_rw (Reset w b).
Proof.
  unfold wf_rw, Reset. intros H. destruct b; [|destruct (outnil w)]; cbn.
  - destruct (Z.gtb_spec (outcap w) 0); auto. unfold zlen. cbn. lia.
  - unfold zlen, startBufSize. cbn. lia.
  - destruct (Z.gtb_spec (outcap w) 0); auto. unfold zlen. cbn. lia.
Qed.
(* the limit after Init(reader) *)
Definition init_limit (w : runewrite) : Z := limit (Reset w None).
Lemma reset_copying w : wf_rw w -> copying (init_limit w) (Reset w None).
Proof.
  intros H. pose proof (wf_reset w None H) as H2. unfold copying, init_limit. unfold Reset in *. destruct (outnil w); cbn in *; auto.
Qed.

Section Inits.
Context {B : Type} (bstep : B -> Z -> B * Z * list Z).
Notation SL := (state (list atom) B).
Notation OL := list_ops.

Definition fresh (s : SL) : Prop := dq s = None /\ rdr s = None /\ pos s = 0 /\ lam s = 0 /\ atEOF s = false.
Definition hinv (s : SL) : Prop :=
  wf_rw (rbuf s) /\ (fresh s \/ exists bs0 its f z k c, GS bstep bs0 its f z k c s).

Lemma init_at (s : SL) its f w : fresh s \/ dq s <> None ->
  exists s', init OL (mkS (dq s) (Some (mkrd its f)) (brks s) w (lastp s) (pos s) (boz s) (lam s) (bpos s) (atEOF s) (inUse s) (err s)) = Ok s' /\
    at_ bstep (brks s) its f (boz s) 0 0 s' /\ rbuf s' = w /\ err s' = err s /\ boz s' = boz s /\ brks s' = brks s.
Proof.
  intros H. unfold init.
  assert (X : exists s' : SL, (match dq s with
     | None => Ok (mkS (Some []) (Some (mkrd its f)) (brks s) w (lastp s) (pos s) (boz s) (lam s) (-1) (atEOF s) (inUse s) (err s))
     | Some _ => Ok (mkS (Some []) (Some (mkrd its f)) (brks s) w (0, 0) 0 (boz s) 0 (-1) false false (err s))
     end : res SL) = Ok s' /\ dq s' = Some [] /\ rdr s' = Some (mkrd its f) /\ brks s' = brks s /\ rbuf s' = w /\ boz s' = boz s /\ err s' = err s /\
     pos s' = 0 /\ lam s' = 0 /\ bpos s' = -1 /\ atEOF s' = false).
  { destruct (dq s) eqn:E; eexists; (split; [reflexivity|]); cbn; auto 12.
    destruct H as [(_ & _ & H1 & H2 & H3)|H]; [auto 12|congruence]. }
  destruct X as (s' & E & A1 & A2 & A3 & A4 & A5 & A6 & A7 & A8 & A9 & A10).
  exists s'. split; [destruct (dq s); exact E|]. split; [|auto].
  split.
  - exists []. split; auto. constructor; auto; try lia; try (rewrite A10; discriminate).
  - rewrite A9. unfold SegNext.F. simpl. reflexivity.
Qed.

Lemma Init_at rd s : hinv s ->
  exists s', Init OL rd s = Ok s' /\ at_ bstep (brks s) (items rd) (fin rd) (boz s) 0 0 s' /\
    copying (init_limit (rbuf s)) (rbuf s') /\ err s' = err s.
Proof.
  intros [Hw H]. unfold Init. destruct rd as [its f].
  destruct (init_at s its f (Reset (rbuf s) None)) as (s' & E & A & W & Er & _).
  { destruct H as [H|(bs0 & i & g & z & k & c & d & X & _)]; [auto|right; congruence]. }
  exists s'. split; [exact E|]. split; [exact A|]. rewrite W. split; [now apply reset_copying|auto].
Qed.
Definition ones (b : list Z) : list (Z * Z) := map (fun r => (r, 1)) b.
Lemma Slice_at b s : hinv s ->
  exists s', InitFromSlice OL b s = Ok s' /\ at_ bstep (brks s) (ones b) EOF (boz s) 0 0 s' /\
    backing (rbuf s') = Some b /\ rend (rbuf s') = 0 /\ err s' = err s.
Proof.
  intros [Hw H]. unfold InitFromSlice. fold (ones b).
  destruct (init_at s (ones b) EOF (Reset (rbuf s) (Some b))) as (s' & E & A & W & Er & _).
  { destruct H as [H|(bs0 & i & g & z & k & c & d & X & _)]; [auto|right; congruence]. }
  exists s'. split; [exact E|]. split; [exact A|]. rewrite W. auto.
Qed.

Lemma hinv_new bs : hinv (NewSegmenter bs).
Proof. split; [unfold wf_rw, zlen; cbn; lia|]. left. unfold fresh; cbn; auto. Qed.

Lemma GS_same bs0 its f z k c s s' : GS bstep bs0 its f z k c s -> dq s' = dq s -> rdr s' = rdr s -> brks s' = brks s -> pos s' = pos s -> lam s' = lam s ->
  bpos s' = bpos s -> atEOF s' = atEOF s -> GS bstep bs0 its f (boz s') k c s'.
Proof.
  intros (d & Hd & []) E0 E1 E2 E3 E4 E5 E6. exists d. split; [congruence|].
  constructor; rewrite ?E1, ?E2, ?E3, ?E4, ?E5, ?E6; auto.
Qed.

Lemma hinv_op o s s' : hinv s -> op_ok o -> apply_op OL bstep o s = Ok s' -> hinv s'.
Proof.
  intros H Ho E. destruct o as [rd|b|cl|b0 b1|buf cap mx]; cbn [apply_op] in E.
  - destruct (Init_at rd s H) as (s1 & E1 & A & W & _). rewrite E1 in E. inversion E; subst. split.
    + destruct W as (_ & _ & W & _). exact W.
    + right. eexists _, _, _, _, _, _. apply A.
  - assert (Hw := proj1 H). destruct (Slice_at b s H) as (s1 & E1 & A & W & _). rewrite E1 in E. inversion E; subst. split.
    + unfold InitFromSlice, init in E1. cbn in E1. destruct (dq s); inversion E1; subst; cbn; exact (wf_reset _ (Some b) Hw).
    + right. eexists _, _, _, _, _, _. apply A.
  - destruct H as [Hw [Hf|(bs0 & its & f & z & k & c & HG)]].
    + destruct Hf as (F1 & F2 & F3 & F4 & F5). unfold next in E. rewrite F2 in E.
      cbn in E. rewrite F5 in E. cbn in E. rewrite F1 in E. destruct (bpos s <? 0); [|discriminate].
      destruct (pos s - lam s >? bound_of cl); [|discriminate]. cbn in E. inversion E; subst. split.
      * cbn. exact (wf_reset (rbuf s) None Hw).
      * left. unfold fresh. cbn. auto.
    + destruct (next_ok bstep bs0 its f z (bound_of cl) k c s HG) as (b & k' & s1 & E1 & _ & _ & _ & R).
      rewrite E1 in E. cbn in E. inversion E; subst. destruct b.
      * destruct R as (_ & G1 & W & _). split; [rewrite W; apply wf_writes; now apply wf_mark|].
        right. eexists _, _, _, _, _, _. exact G1.
      * destruct R as (G1 & _ & _ & R). split; [|right; eexists _, _, _, _, _, _; exact G1].
        destruct R as [(-> & _)|[(-> & _)|[(-> & _)|(-> & _)]]]; auto; now apply wf_reset.
  - inversion E; subst. destruct H as [Hw [Hf|(bs0 & its & f & z & k & c & HG)]]; (split; [exact Hw|]).
    + left. exact Hf.
    + right. exists bs0, its, f, (b0, b1), k, c. eapply (GS_same _ _ _ _ _ _ s (BreakOnZero b0 b1 s)) in HG; auto.
  - unfold RuneBuffer in E. destruct (inUse s); [discriminate|]. destruct (zlen buf >? 0); inversion E; subst; [|auto].
    destruct H as [Hw [Hf|(bs0 & its & f & z & k & c & HG)]]; (split; [exact Ho|]).
    + left. exact Hf.
    + right. exists bs0, its, f, (boz s), k, c.
      match goal with |- GS _ _ _ _ _ _ _ ?t => apply (GS_same _ _ _ _ _ _ s t) in HG; auto end.
Qed.

Lemma hinv_history : forall os s s', hinv s -> Forall op_ok os -> history OL bstep os s = Ok s' -> hinv s'.
Proof.
  induction os as [|o os IH]; intros s s' H Ho E; cbn [history] in E; [congruence|].
  inversion Ho; subst. destruct (apply_op OL bstep o s) as [s1| |] eqn:E1; try discriminate. cbn in E.
  apply (IH s1); auto. now apply (hinv_op o s).
Qed.

(* ---- Next() with arbitrary breakers ---- *)
Section NextTiles.
Context (bs0 : list B) (its : list (Z * Z)) (f : error) (z0 : bool * bool).
Context (sizes1 : Forall (fun it => 1 <= snd it) its) (total : sizes its < MaxInt).
Notation mat := (mat bstep bs0 its f).
Notation N := (N its f).
Notation Fx := (SegNext.F bstep bs0 its f z0).

Lemma last_nth {A} (l : list A) d : last l d = nth (length l - 1) l d.
Proof.
  induction l as [|a l IH]; auto. destruct l as [|b l]; auto. change (last (a :: b :: l) d) with (last (b :: l) d). rewrite IH.
  cbn. now rewrite Nat.sub_0_r.
Qed.

Lemma column_last g (m : list (list answer)) n : length m = S n -> column g m n = g (last m []) 0%nat.
Proof.
  intros L. unfold column. rewrite L. replace (S n - n)%nat with 1%nat by lia. cbn [seq map fold_right].
  rewrite Nat.sub_diag, last_nth, L. replace (S n - 1)%nat with n by lia. lia.
Qed.

Lemma eot_not_break : f = EOF -> eot_safe mat -> Tf bstep bs0 its f z0 (length its) = false.
Proof.
  intros Hf [H1 H2]. unfold Tf.
  assert (L : length mat = S (length its)) by (rewrite mat_len, N_len, Hf; lia).
  unfold eff. rewrite !(column_last _ mat (length its) L).
  assert (E : nth (length its) (ins its f) zeroAtom = eotAtom).
  { unfold ins. rewrite Hf, app_nth2; rewrite map_length; unfold rs; rewrite map_length; [|lia]. now rewrite Nat.sub_diag. }
  rewrite E. unfold test0, breakable, isPossibleBreak, InfinitePenalty. cbn [ap0 ap1 eotAtom].
  rewrite !Z.geb_leb.
  destruct (Z.leb_spec 10000 (InfinitePenalty + prim (last mat []) 0)), (Z.leb_spec 10000 (InfinitePenalty + sec (last mat []) 0));
    unfold InfinitePenalty in *; try lia.
Qed.

Lemma F_real j c i : f = EOF -> eot_safe mat -> (c <= j)%nat -> (j <= N)%nat -> Fx j c = Some i -> (c + S i <= length its)%nat.
Proof.
  intros Hf He Hc Hj Fi. destruct (F_lt bstep bs0 its f z0 j c i Fi Hc Hj) as [L1 L2].
  destruct (F_Some bstep bs0 its f z0 j c i Fi Hc Hj) as [T1 _].
  assert (NL : N = S (length its)) by (rewrite N_len, Hf; lia).
  destruct (Nat.eq_dec (c + i) (length its)) as [E|]; [exfalso|lia].
  assert (j = N) by lia. subst j. unfold SegNext.T in T1. rewrite firstn_N in T1.
  rewrite E in T1. pose proof (eot_not_break Hf He) as X. unfold Tf in X. congruence.
Qed.

Lemma loop_tiles mode : eot_safe mat -> f = EOF -> forall n k c s,
  at_ bstep bs0 its f z0 k c s -> holds mode (rs its) c (rbuf s) -> (c <= length its)%nat ->
  exists segs fl s' c', loop OL bstep n s = Ok (map (fun x => (view mode (fst x), snd x)) segs, fl, s') /\
    (c <= c' <= length its)%nat /\
    firstn c' (rs its) = firstn c (rs its) ++ concat (map fst segs) /\
    Forall (fun x => fst x <> []) segs /\ err s' = err s.
Proof.
  intros He Hf. induction n as [|n IH]; intros k c s H W Hc.
  - exists [], false, s, c. split; [reflexivity|]. split; [lia|]. simpl. rewrite app_nil_r. auto.
  - destruct (GS_bounds bstep bs0 its f z0 k c s (proj1 H)) as [C1 C2].
    destruct (exec_step bstep bs0 its f z0 sizes1 total mode k c s H W) as (k' & K & J & [ST|ST]); auto.
    { intros _ j i Hj. apply F_real; auto; lia. }
    + destruct ST as (i & s1 & Fi & E & H1 & W1 & Er). cbn [loop]. rewrite E. cbn [rbind].
      pose proof (F_real k' c i Hf He ltac:(lia) ltac:(lia) Fi) as L.
      destruct (IH k' (c + S i)%nat s1 H1 W1 L) as (segs & fl & s2 & c' & E2 & L2 & T2 & N2 & Er2).
      rewrite E2. cbn [rbind].
      exists ((firstn (S i) (skipn c (irunes its f)), seg_pens bstep bs0 its f k' (c + i)) :: segs), fl, s2, c'.
      split; [reflexivity|]. split; [lia|].
      assert (X : firstn (S i) (skipn c (irunes its f)) = firstn (S i) (skipn c (rs its))).
      { unfold irunes, ins. rewrite map_app, map_map. cbn [ar]. rewrite map_id, skipn_app, firstn_app.
        replace (S i - length (skipn c (rs its)))%nat with 0%nat by (rewrite skipn_length; unfold rs; rewrite map_length; lia).
        now rewrite firstn_O, app_nil_r. }
      rewrite X. split; [|split; [|congruence]].
      * rewrite T2. cbn [map concat fst]. rewrite app_assoc. f_equal.
        rewrite <- (firstn_skipn c (rs its)) at 1. rewrite firstn_app, firstn_firstn.
        replace (Nat.min (c + S i) c) with c by lia. f_equal. f_equal. unfold rs. rewrite firstn_length, map_length. lia.
      * constructor; auto. cbn [fst]. intros Y. apply (f_equal (@length _)) in Y. rewrite firstn_length, skipn_length in Y.
        unfold rs in Y. rewrite map_length in Y. cbn [length] in Y. lia.
    + destruct ST as (s1 & Fn & Kn & E & A1 & H1 & Er). cbn [loop]. rewrite E. cbn [rbind].
      exists [], true, s1, c. split; [reflexivity|]. split; [lia|]. simpl. rewrite app_nil_r. split; auto. split; auto.
      destruct Er as [Er|[_ Er]]; [auto|congruence].
Qed.

(* once Next() has returned false it keeps doing so *)
Lemma exhausted c s : at_ bstep bs0 its f z0 N c s -> atEOF s = true -> bpos s < 0 ->
  forall cl, exists s', exec OL bstep cl s = Ok (None, s') /\ atEOF s' = true /\ bpos s' < 0 /\ err s' = err s /\
     at_ bstep bs0 its f z0 N c s'.
Proof.
  intros [(d & Hd & H) Hb] A Lb cl. unfold exec, next. rewrite (G_rdr _ _ _ _ _ _ _ _ _ H).
  cbn [atEOF set_inUse]. rewrite A. cbn [negb bpos set_inUse]. destruct (Z.ltb_spec (bpos s) 0); [|lia].
  eexists. split; [reflexivity|]. cbn. split; auto. split; auto. split; auto. split; auto.
  exists d. split; auto. eapply G_same; eauto.
Qed.
End NextTiles.
End Inits.
