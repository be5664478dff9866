(* MarkupProofs.v -- scanning with markup is scanning the text with invisible delimiters. *)
From Coq Require Import List ZArith Lia Bool.
From Verif Require Import Base Scrap Brackets Scanner ScannerProofs Resolver ResolverText MarkupSpec.
Import ListNotations.
Open Scope Z_scope.

(* the same state of the scanner, with other input and other memory of markup *)
Definition put (rest : list (Z * Z)) (m k : Z) (st : scst) : scst := mksc rest m k (s_hs st) (s_irs st) (s_stack st) (s_bd st) (s_ctx st).
Lemma put_put a m k b n l st : put a m k (put b n l st) = put a m k st.
Proof. reflexivity. Qed.
Lemma put_self st : put (s_rest st) (s_mpos st) (s_mk st) st = st.
Proof. destruct st; reflexivity. Qed.
Lemma put_ctxs a m k st c : with_ctxs (put a m k st) c = put a m k (with_ctxs st c).
Proof. reflexivity. Qed.
Lemma put_rest a m k st : at_rest (put a m k st) = at_rest st.
Proof. reflexivity. Qed.
Lemma put_switch a m k st s : handleIsolatingRunSwitch (put a m k st) s = option_map (put a m k) (handleIsolatingRunSwitch st s).
Proof.
  unfold handleIsolatingRunSwitch. cbn [put s_rest s_mpos s_mk s_hs s_irs s_stack s_bd s_ctx]. destruct (clz s =? cPDI).
  - destruct (s_stack st) as [|x t]; [reflexivity|]. destruct (nth_error (s_hs st) (s_bd st)) as [h|]; [|reflexivity]. cbn [obind].
    destruct (removelast (x :: t)) as [|y u]; [reflexivity|]. destruct (irs_find _ _); reflexivity.
  - destruct (irs_find (s_irs st) 0) as [i0|]; [|reflexivity]. cbn [obind]. destruct (last_irs _ _ _) as [i|]; [|reflexivity]. cbn [obind]. destruct (nth_error _ i); reflexivity.
Qed.
Lemma put_bd16 a m k st r s : prepareRuleBD16 (put a m k st) r s = option_map (put a m k) (prepareRuleBD16 st r s).
Proof.
  unfold prepareRuleBD16. destruct (negb (isbracket s)); [reflexivity|]. cbn [put s_rest s_mpos s_mk s_hs s_irs s_stack s_bd s_ctx]. destruct (nth_error _ _); reflexivity.
Qed.
(* both keep the input *)
Lemma switch_keeps st s st' : handleIsolatingRunSwitch st s = Some st' -> s_rest st' = s_rest st /\ s_mpos st' = s_mpos st /\ s_mk st' = s_mk st.
Proof.
  intros E. pose proof (put_switch (s_rest st) (s_mpos st) (s_mk st) st s) as P. rewrite put_self, E in P. cbn in P. injection P as P. rewrite P. auto.
Qed.
Lemma bd16_keeps st r s st' : prepareRuleBD16 st r s = Some st' -> s_rest st' = s_rest st /\ s_mpos st' = s_mpos st /\ s_mk st' = s_mk st.
Proof.
  intros E. pose proof (put_bd16 (s_rest st) (s_mpos st) (s_mk st) st r s) as P. rewrite put_self, E in P. cbn in P. injection P as P. rewrite P. auto.
Qed.

Section Markup.
Context (md : mode) (props : Z -> Z * Z) (upper : Z -> bool) (f : Z -> Z).
(* the tables know the three delimiters of Unicode, and neither they nor NUL are letters *)
Definition delimiters_known : Prop :=
  props 8294 = (cLRI, 0) /\ props 8295 = (cRLI, 0) /\ props 8297 = (cPDI, 0) /\ forallb (fun r => negb (upper r)) [0; 8294; 8295; 8297] = true.
Context (DK : delimiters_known) (DO : documented f).
Definition g := not_at_start f.

Definition ahead (pos : Z) (rest : list (Z * Z)) : list (Z * Z) := match rest with [] => [] | (r, len) :: t => (r, len) :: woven g (pos + len) t end.
Lemma woven_eq pos rest : woven g pos rest = delimiters (g pos) ++ ahead pos rest.
Proof. destruct rest as [|[r len] t]; reflexivity. Qed.

(* what the scanner will still read, markup included *)
Definition pending (st : scst) (pos : Z) : list (Z * Z) :=
  if 0 <? s_mk st then delimiters (s_mk st) ++ ahead pos (s_rest st)
  else if s_mpos st <? pos then woven g pos (s_rest st) else ahead pos (s_rest st).
Definition fine (st : scst) (pos : Z) : Prop :=
  0 <= s_mpos st <= pos /\ (s_mk st <= 0 \/ (s_mk st = MarkupLRI \/ s_mk st = MarkupRLI) /\ s_mpos st = pos) /\
  Forall (fun x => 0 < snd x) (s_rest st) /\ pos + total (para md props (s_rest st)) < 2 ^ 32.
Definition plainly (st : scst) (pos : Z) : scst := put (pending st pos) 0 (-1) st.

(* delimiters at the head of the input *)
Lemma read_delimiter d c st rest : In d [invisible_LRI; invisible_RLI; invisible_PDI] -> props (fst d) = (c, 0) -> In c [cLRI; cRLI; cPDI] ->
  nextRune md props None (put (d :: rest) 0 (-1) st) 0 = (Some (fst d, 0, c), put rest 0 (-1) st).
Proof.
  intros I P C. unfold nextRune, read_rune. cbn [put s_rest]. destruct d as [r len]. cbn [fst] in P. rewrite P.
  assert (len = 0) by (cbn in I; destruct I as [E|[E|[E|[]]]]; injection E; auto). subst len.
  assert ((c =? cB) = false) by (cbn in C; destruct C as [E|[E|[E|[]]]]; subst c; reflexivity). rewrite H. reflexivity.
Qed.
Definition delimiter_of (c : Z) : Z * Z := if c =? cLRI then invisible_LRI else if c =? cRLI then invisible_RLI else invisible_PDI.
Lemma delimiter_props c : In c [cLRI; cRLI; cPDI] -> In (delimiter_of c) [invisible_LRI; invisible_RLI; invisible_PDI] /\ props (fst (delimiter_of c)) = (c, 0).
Proof. destruct DK as (A & B & C & _). intros [E|[E|[E|[]]]]; subst c; cbn; auto 6. Qed.
Lemma read_pending c st rest pos : In c [cLRI; cRLI; cPDI] ->
  nextRune md props None (put (delimiter_of c :: rest) 0 (-1) st) pos = (Some (fst (delimiter_of c), 0, c), put rest 0 (-1) st).
Proof. intros C. destruct (delimiter_props c C) as (I & P). exact (read_delimiter _ _ st rest I P C). Qed.

(* one character: the same answer, but for the character of a delimiter *)
Lemma next_same st pos : fine st pos ->
  exists inp inp' st1, nextRune md props (Some f) st pos = (inp, st1) /\
    match inp with
    | None => inp' = None /\ exists rest', nextRune md props None (plainly st pos) pos = (inp', put rest' 0 (-1) st1)
    | Some (r, len, c) => nextRune md props None (plainly st pos) pos = (inp', plainly st1 (pos + len)) /\ fine st1 (pos + len) /\
        (inp' = inp \/ exists d, inp = Some (0, 0, c) /\ inp' = Some (d, 0, c) /\ In c [cLRI; cRLI; cPDI] /\ In d [8294; 8295; 8297])
    end.
Proof.
  intros (P & K & L & B).
  (* reading from the text *)
  assert (RD : forall m, 0 <= m <= pos -> (m = s_mpos st) -> s_mk st <= 0 -> pending st pos = ahead pos (s_rest st) ->
    exists inp inp' st1, read_rune md props st = (inp, st1) /\
    match inp with
    | None => inp' = None /\ exists rest', nextRune md props None (plainly st pos) pos = (inp', put rest' 0 (-1) st1)
    | Some (r, len, c) => nextRune md props None (plainly st pos) pos = (inp', plainly st1 (pos + len)) /\ fine st1 (pos + len) /\
        (inp' = inp \/ exists d, inp = Some (0, 0, c) /\ inp' = Some (d, 0, c) /\ In c [cLRI; cRLI; cPDI] /\ In d [8294; 8295; 8297])
    end).
  { intros m M ME KL PE. unfold plainly. rewrite PE. unfold read_rune, nextRune, read_rune. cbn [put s_rest s_mpos s_mk s_hs s_irs s_stack s_bd s_ctx].
    clear K. revert L B. destruct (s_rest st) as [|[r len] t] eqn:ER; intros L B.
    - exists None, None, st. split; [reflexivity|]. split; [reflexivity|]. exists []. cbn [ahead]. reflexivity.
    - cbn [ahead]. destruct (props r) as [c b] eqn:EP. destruct ((c =? cB) && negb (m_ignore md)) eqn:EB.
      + exists None, None. eexists. split; [reflexivity|]. split; [reflexivity|]. eexists. reflexivity.
      + eexists _, _, _. split; [reflexivity|]. cbv beta iota. inversion L as [|? ? L1 L2]; subst. cbn [snd] in L1.
        assert (PD : pending (mksc t (s_mpos st) (s_mk st) (s_hs st) (s_irs st) (s_stack st) (s_bd st) (s_ctx st)) (pos + len) = woven g (pos + len) t).
        { unfold pending. cbn [s_mk s_mpos s_rest]. destruct (Z.ltb_spec 0 (s_mk st)); [lia|]. destruct (Z.ltb_spec (s_mpos st) (pos + len)); [reflexivity|lia]. }
        split; [|split].
        * unfold put at 1. rewrite PD. reflexivity.
        * unfold fine. cbn [s_mk s_mpos s_rest]. split; [lia|]. split; [left; lia|]. split; [exact L2|].
          cbn [para fst] in B. rewrite EP in B. cbn [fst] in B. rewrite EB in B. unfold total in B |- *. cbn [fold_right snd] in B. lia.
        * left. reflexivity. }
  unfold nextRune at 1. destruct (Z.ltb_spec 0 (s_mk st)) as [KP|KP].
  - (* the markup on the shelf *)
    destruct K as [K|(K & E)]; [lia|].
    assert (C : exists c, markupToBidi (s_mk st) = c /\ In c [cLRI; cRLI; cPDI] /\ delimiters (s_mk st) = [delimiter_of c]).
    { destruct K as [K|K]; rewrite K; eexists; (split; [vm_compute; reflexivity|]); (split; [cbn; tauto|reflexivity]). }
    destruct C as (c & -> & C & ED). eexists _, _, _. split; [reflexivity|]. cbv beta iota. rewrite Z.add_0_r. split; [|split].
    + unfold plainly. unfold pending at 1. destruct (Z.ltb_spec 0 (s_mk st)); [|lia]. rewrite ED. cbn [app].
      rewrite read_pending by exact C. apply f_equal2; [reflexivity|]. unfold pending. cbn [s_mk s_mpos s_rest put s_hs s_irs s_stack s_bd s_ctx].
      change (0 <? 0) with false. cbv iota. rewrite Z.ltb_irrefl. reflexivity.
    + unfold fine. cbn [s_mk s_mpos s_rest]. split; [lia|]. split; [left; lia|]. split; [exact L|exact B].
    + right. exists (fst (delimiter_of c)). split; [reflexivity|]. split; [reflexivity|]. split; [exact C|]. cbn in C. destruct C as [C|[C|[C|[]]]]; subst c; cbn; auto.
  - destruct (Z.ltb_spec (s_mpos st) pos) as [PL|PL]; cbn [andb].
    + assert (GE : g pos = f pos) by (unfold g, not_at_start; destruct (Z.eqb_spec pos 0); [lia|reflexivity]).
      destruct (DO pos) as [D|D].
      * destruct (Z.ltb_spec 0 (f pos)); [lia|]. cbn [andb].
        apply (RD (s_mpos st)); auto. unfold pending. destruct (Z.ltb_spec 0 (s_mk st)); [lia|]. destruct (Z.ltb_spec (s_mpos st) pos); [|lia]. rewrite woven_eq, GE.
        assert (EN : delimiters (f pos) = []).
        { assert (NE : forall k, 0 < k -> (f pos =? k) = false) by (intros k KK; apply Z.eqb_neq; lia). unfold delimiters. now rewrite !NE by (vm_compute; reflexivity). }
        rewrite EN. reflexivity.
      * assert (FP : 0 < f pos). { cbn in D. unfold MarkupLRI, MarkupRLI, MarkupPDI, cLRI, cRLI, cPDI in D. destruct D as [D|[D|[D|[D|[D|[]]]]]]; lia. }
        destruct (Z.ltb_spec 0 (f pos)); [|lia]. cbn [andb].
        assert (PE : pending st pos = delimiters (f pos) ++ ahead pos (s_rest st)).
        { unfold pending. destruct (Z.ltb_spec 0 (s_mk st)); [lia|]. destruct (Z.ltb_spec (s_mpos st) pos); [|lia]. now rewrite woven_eq, GE. }
        destruct (0 <? Z.land (f pos) MarkupPDI) eqn:EL.
        -- (* a PDI first *)
           assert (ED : exists k, f pos - MarkupPDI = k /\ delimiters (f pos) = invisible_PDI :: (if 0 <? k then delimiters k else []) /\ (k <= 0 \/ k = MarkupLRI \/ k = MarkupRLI)).
           { exists (f pos - MarkupPDI). split; [reflexivity|]. cbn [In] in D. destruct D as [D|[D|[D|[D|[D|[]]]]]]; rewrite <- D in *; try (vm_compute in EL; discriminate EL); (split; [reflexivity|]); first [right; left; reflexivity|right; right; reflexivity|left; vm_compute; congruence]. }
           destruct ED as (k & EK & ED & KC). rewrite EK. eexists _, _, _. split; [reflexivity|]. cbv beta iota. rewrite Z.add_0_r. split; [|split].
           ++ unfold plainly. rewrite PE, ED. change invisible_PDI with (delimiter_of cPDI). cbn [app]. rewrite read_pending by (cbn; auto). apply f_equal2; [reflexivity|].
              unfold pending. cbn [s_mk s_mpos s_rest put s_hs s_irs s_stack s_bd s_ctx]. rewrite Z.ltb_irrefl. destruct (0 <? k); reflexivity.
           ++ unfold fine. cbn [s_mk s_mpos s_rest]. split; [lia|]. split; [|split; [exact L|exact B]]. destruct KC as [KC|KC]; [left; lia|right; auto].
           ++ right. exists 8297. cbn. auto 8.
        -- (* a single initiator *)
           assert (ED : exists c, markupToBidi (f pos) = c /\ In c [cLRI; cRLI; cPDI] /\ delimiters (f pos) = [delimiter_of c]).
           { cbn [In] in D. destruct D as [D|[D|[D|[D|[D|[]]]]]]; rewrite <- D in *; try (vm_compute in EL; discriminate EL); eexists; (split; [vm_compute; reflexivity|]); (split; [cbn; tauto|reflexivity]). }
           destruct ED as (c & -> & C & ED). eexists _, _, _. split; [reflexivity|]. cbv beta iota. rewrite Z.add_0_r. split; [|split].
           ++ unfold plainly. rewrite PE, ED. cbn [app]. rewrite read_pending by exact C. apply f_equal2; [reflexivity|].
              unfold pending. cbn [s_mk s_mpos s_rest put s_hs s_irs s_stack s_bd s_ctx]. change (0 <? 0) with false. cbv iota. rewrite Z.ltb_irrefl. reflexivity.
           ++ unfold fine. cbn [s_mk s_mpos s_rest]. split; [lia|]. split; [left; lia|]. split; [exact L|exact B].
           ++ right. exists (fst (delimiter_of c)). split; [reflexivity|]. split; [reflexivity|]. split; [exact C|]. cbn in C. destruct C as [C|[C|[C|[]]]]; subst c; cbn; auto.
    + apply (RD (s_mpos st)); auto. unfold pending. destruct (Z.ltb_spec 0 (s_mk st)); [lia|]. destruct (Z.ltb_spec (s_mpos st) pos); [lia|reflexivity].
Qed.

(* one round *)
Lemma delimiter_class c d cur : In c [cLRI; cRLI; cPDI] -> In d [8294; 8295; 8297] ->
  test_class md upper d c = c /\ test_class md upper 0 c = c /\ applyRulesW1to3 c cur = c /\ (c =? cAL) = false.
Proof.
  destruct DK as (_ & _ & _ & U). cbn [forallb] in U. repeat rewrite andb_true_iff in U. destruct U as (U0 & U1 & U2 & U3 & _). apply negb_true_iff in U0, U1, U2, U3.
  intros C D. unfold test_class. split; [|split; [|split]].
  - destruct (m_test md); [|reflexivity]. destruct D as [D|[D|[D|[]]]]; subst d; rewrite ?U1, ?U2, ?U3; reflexivity.
  - destruct (m_test md); [|reflexivity]. rewrite U0. reflexivity.
  - destruct C as [C|[C|[C|[]]]]; subst c; reflexivity.
  - destruct C as [C|[C|[C|[]]]]; subst c; reflexivity.
Qed.
Lemma step_same st cur al : fine st (sr cur) -> hok st ->
  match scan_step md props upper (Some f) st cur al with
  | Some (out, None) => scan_step md props upper None (plainly st (sr cur)) cur al = Some (out, None) /\
      snd (nextRune md props None (plainly st (sr cur)) (sr cur)) = put (s_rest (snd (nextRune md props None (plainly st (sr cur)) (sr cur)))) 0 (-1) (snd (nextRune md props (Some f) st (sr cur)))
  | Some (out, Some (st', cur', al')) => scan_step md props upper None (plainly st (sr cur)) cur al = Some (out, Some (plainly st' (sr cur'), cur', al')) /\ fine st' (sr cur')
  | None => scan_step md props upper None (plainly st (sr cur)) cur al = None
  end.
Proof.
  intros F H. unfold scan_step. destruct (next_same st (sr cur) F) as (inp & inp' & st1 & EN & M). rewrite EN.
  destruct inp as [[[r len] c]|].
  2:{ destruct M as (-> & rest' & ->). destruct (isisolate cur); cbn [obind snd]; [|split; [reflexivity|reflexivity]].
      rewrite put_switch. destruct (handleIsolatingRunSwitch st1 cur); cbn [option_map obind]; auto. }
  destruct M as (-> & F1 & RR).
  assert (EQ : exists r', inp' = Some (r', len, c) /\ test_class md upper r' c = test_class md upper r c /\
    (r' = r \/ isbracket (mks (applyRulesW1to3 (test_class md upper r c) cur) (sr cur) (u32 (sr cur + len)) dc0 []) = false)).
  { destruct RR as [->|(d & E1 & -> & C & D)]; [eauto|]. injection E1 as -> ->. exists d. split; [reflexivity|].
    destruct (delimiter_class c d cur C D) as (T1 & T2 & T3 & _). rewrite T1, T2, T3. split; [reflexivity|]. right. cbn in C. destruct C as [C|[C|[C|[]]]]; subst c; reflexivity. }
  destruct EQ as (r' & -> & -> & RB). set (cc := test_class md upper r c) in *.
  assert (UU : u32 (sr cur + len) = sr cur + len).
  { unfold u32. apply Z.mod_small. destruct F1 as (P & _ & L & B). assert (0 <= total (para md props (s_rest st1))).
    { apply total_nonneg, para_lens. eapply Forall_impl; [|exact L]. cbv beta. intros. lia. } lia. }
  rewrite UU in *. set (la := mks (applyRulesW1to3 cc cur) (sr cur) (sr cur + len) dc0 []) in *.
  destruct (finished cur la).
  - assert (SW : forall b : bool, (if b then handleIsolatingRunSwitch (plainly st1 (sr cur + len)) cur else Some (plainly st1 (sr cur + len))) =
      option_map (put (pending st1 (sr cur + len)) 0 (-1)) (if b then handleIsolatingRunSwitch st1 cur else Some st1)).
    { intros []; [apply put_switch|reflexivity]. }
    rewrite SW. clear SW.
    assert (KP : forall st2, (if negb (clz cur =? cNULL) && isisolate cur then handleIsolatingRunSwitch st1 cur else Some st1) = Some st2 -> s_rest st2 = s_rest st1 /\ s_mpos st2 = s_mpos st1 /\ s_mk st2 = s_mk st1).
    { intros st2. destruct (_ && _); [apply switch_keeps|intros E; injection E as <-; auto]. }
    destruct (if negb (clz cur =? cNULL) && isisolate cur then handleIsolatingRunSwitch st1 cur else Some st1) as [st2|]; cbn [option_map obind]; [|reflexivity].
    destruct (KP st2 eq_refl) as (K1 & K2 & K3). clear KP.
    set (P := put (pending st1 (sr cur + len)) 0 (-1)).
    set (pr := if isisolate la && negb (clz la =? cPDI) then (with_ctxs st2 (s_ctx st2 ++ [sctx cur]), cur) else _).
    assert (PR : exists st3 cur3, pr = (st3, cur3) /\ s_rest st3 = s_rest st1 /\ s_mpos st3 = s_mpos st1 /\ s_mk st3 = s_mk st1 /\
      (if isisolate la && negb (clz la =? cPDI) then (with_ctxs (P st2) (s_ctx (P st2) ++ [sctx cur]), cur)
       else match s_ctx (P st2) with
            | [] => (P st2, cur)
            | x :: _ => if clz cur =? cPDI then (with_ctxs (P st2) (removelast (s_ctx (P st2))), with_ctx cur (last (s_ctx (P st2)) x)) else (P st2, cur)
            end) = (P st3, cur3)).
    { unfold pr, P. cbn [put s_ctx]. destruct (isisolate la && negb (clz la =? cPDI)).
      - eexists _, _. split; [reflexivity|]. cbn [with_ctxs s_rest s_mpos s_mk]. auto.
      - destruct (s_ctx st2) as [|x t].
        + eexists _, _. split; [reflexivity|]. auto.
        + destruct (clz cur =? cPDI); eexists _, _; (split; [reflexivity|]); cbn [with_ctxs s_rest s_mpos s_mk]; auto. }
    destruct PR as (st3 & cur3 & -> & R3 & P3 & M3 & ->). unfold P. rewrite put_bd16.
    set (la' := inheritStrongTypes la cur3 al).
    assert (BD : prepareRuleBD16 st3 r' la' = prepareRuleBD16 st3 r la').
    { destruct RB as [->|NB]; [reflexivity|]. unfold prepareRuleBD16. replace (isbracket la') with false by (symmetry; exact NB). reflexivity. }
    rewrite BD. destruct (prepareRuleBD16 st3 r la') as [st4|] eqn:E4; cbn [option_map obind]; [|reflexivity].
    destruct (bd16_keeps _ _ _ _ E4) as (R4 & P4 & M4). change (sr la') with (sr cur + len). split.
    + unfold plainly. replace (pending st4 (sr cur + len)) with (pending st1 (sr cur + len)); [reflexivity|]. unfold pending. now rewrite R4, P4, M4, R3, P3, M3.
    + unfold fine in *. rewrite R4, P4, M4, R3, P3, M3. exact F1.
  - cbn [obind]. change (sr (collapse cur la (clz cur))) with (sr cur + len). split; [reflexivity|exact F1].
Qed.

Lemma loop_same : forall n st cur al, fine st (sr cur) -> hok st -> 0 <= sr cur ->
  scan_loop md props upper None n (plainly st (sr cur)) cur al = scan_loop md props upper (Some f) n st cur al /\
  scan_final md props upper None n (plainly st (sr cur)) cur al = scan_final md props upper (Some f) n st cur al.
Proof.
  induction n as [|n IH]; intros st cur al F H P; [auto|]. cbn [scan_loop scan_final].
  pose proof (step_same st cur al F H) as S.
  destruct (step_spec md props upper (Some f) st cur al H) as [(E & _)|(out & st' & cur' & al' & r & len & c & st1 & E & RD & R1 & LN & TT & MU & SR & FT)]; [|exact P| | |].
  - destruct F as (_ & _ & L & _). eapply Forall_impl; [|exact L]. cbv beta. intros. lia.
  - destruct F as (_ & _ & _ & B). exact B.
  - rewrite E in S |- *. destruct S as (-> & S). cbn [lift rbind]. split; [reflexivity|]. rewrite S. destruct (isisolate cur).
    + rewrite put_switch. destruct (handleIsolatingRunSwitch _ cur); reflexivity.
    + reflexivity.
  - rewrite E in S |- *. destruct S as (-> & F'). cbn [lift rbind]. destruct RD as (H' & _). destruct (IH st' cur' al' F' H' ltac:(lia)) as (-> & ->). auto.
Qed.

(* fuel *)
Lemma loop_more mk n : forall m st cur al x, (n <= m)%nat -> scan_loop md props upper mk n st cur al = Ok x -> scan_loop md props upper mk m st cur al = Ok x.
Proof.
  induction n as [|n IH]; intros [|m] st cur al x LE E; try discriminate; [lia|]. cbn [scan_loop] in *. destruct (lift (scan_step _ _ _ _ _ _ _)) as [[out nx]| |]; try discriminate. cbn [rbind] in *.
  destruct nx as [[[st' cur'] al']|]; [|exact E]. destruct (scan_loop md props upper mk n st' cur' al') as [y| |] eqn:EY; try discriminate. cbn [rbind] in E.
  rewrite (IH m _ _ _ y ltac:(lia) EY). exact E.
Qed.
Lemma final_more mk n : forall m st cur al x, (n <= m)%nat -> scan_final md props upper mk n st cur al = Ok x -> scan_final md props upper mk m st cur al = Ok x.
Proof.
  induction n as [|n IH]; intros [|m] st cur al x LE E; try discriminate; [lia|]. cbn [scan_final] in *. destruct (lift (scan_step _ _ _ _ _ _ _)) as [[out nx]| |]; try discriminate. cbn [rbind] in *.
  destruct nx as [[[st' cur'] al']|]; [|exact E]. apply (IH m); [lia|exact E].
Qed.
Lemma loop_ends mk : forall n st cur al, hok st -> lens_ok (s_rest st) -> 0 <= sr cur -> sr cur + total (para md props (s_rest st)) < 2 ^ 32 ->
  (mu st (sr cur) < n)%nat -> exists x, scan_loop md props upper mk n st cur al = Ok x.
Proof.
  induction n as [|n IH]; intros st cur al H L P B M; [lia|]. cbn [scan_loop].
  destruct (step_spec md props upper mk st cur al H L P B) as [(-> & _)|(out & st' & cur' & al' & r & len & c & st1 & -> & RD & R1 & LN & TT & MU & SR & FT)]; cbn [lift rbind]; [eauto|].
  destruct RD as (H' & L' & _). destruct (IH st' cur' al' H' L') as (x & ->); [lia|lia|lia|]. cbn [rbind]. eauto.
Qed.
Lemma woven_longer pos input : (length input <= length (woven g pos input))%nat.
Proof. revert pos. induction input as [|[r len] t IH]; intros pos; cbn [woven length]; [lia|]. rewrite app_length. cbn [length]. specialize (IH (pos + len)). lia. Qed.

Context (input : list (Z * Z)) (LP : Forall (fun x => 0 < snd x) input) (TB : total (para md props input) < 2 ^ 32).
Lemma start_sr : sr (initialOuterScrap md false) = 0.
Proof. unfold initialOuterScrap. destruct (m_r2l md); reflexivity. Qed.
Lemma start_fine : fine (newScanner input) (sr (initialOuterScrap md false)).
Proof. rewrite start_sr. unfold fine. cbn [newScanner s_mpos s_mk s_rest]. split; [lia|]. split; [left; lia|]. split; [exact LP|exact TB]. Qed.
Lemma start_plain : plainly (newScanner input) (sr (initialOuterScrap md false)) = newScanner (woven g 0 input).
Proof. rewrite start_sr. unfold plainly, pending. cbn [newScanner s_mpos s_mk s_rest]. rewrite woven_eq. unfold g, not_at_start. reflexivity. Qed.
Lemma lens_weak : lens_ok input.
Proof. eapply Forall_impl; [|exact LP]. cbv beta. intros. lia. Qed.

Theorem scan_markup : Scan md props upper (Some f) input = Scan md props upper None (woven g 0 input).
Proof.
  unfold Scan. destruct (loop_same (3 * length input + 4) (newScanner input) (initialOuterScrap md false) (-1) start_fine (new_ok input) ltac:(rewrite start_sr; lia)) as (E & _).
  rewrite start_plain in E.
  destruct (loop_ends (Some f) (3 * length input + 4) (newScanner input) (initialOuterScrap md false) (-1) (new_ok input) lens_weak) as (x & EX);
    [rewrite start_sr; lia|rewrite start_sr; exact TB|rewrite start_sr, mu_start; lia|].
  rewrite EX. rewrite EX in E. symmetry. apply (loop_more None (3 * length input + 4)); [pose proof (woven_longer 0 input); lia|exact E].
Qed.
Theorem final_markup : ScanFinal md props upper (Some f) input = ScanFinal md props upper None (woven g 0 input).
Proof.
  destruct (ScanFinal_ok md props upper (Some f) input lens_weak TB) as (x & EX & _).
  unfold ScanFinal in *. destruct (loop_same (3 * length input + 4) (newScanner input) (initialOuterScrap md false) (-1) start_fine (new_ok input) ltac:(rewrite start_sr; lia)) as (_ & E).
  rewrite start_plain in E. rewrite EX. rewrite EX in E. symmetry. apply (final_more None (3 * length input + 4)); [pose proof (woven_longer 0 input); lia|exact E].
Qed.
Theorem resolve_markup n : ResolveParagraph n md props upper (Some f) input = ResolveParagraph n md props upper None (woven g 0 input).
Proof. unfold ResolveParagraph. now rewrite scan_markup, final_markup. Qed.
End Markup.

(* markup functions that differ in the delimiters of no position weave the same text *)
Lemma woven_ext f g0 : (forall p, delimiters (f p) = delimiters (g0 p)) -> forall input pos, woven f pos input = woven g0 pos input.
Proof. intros E. induction input as [|[r len] t IH]; intros pos; cbn [woven]; rewrite E; [reflexivity|]. now rewrite IH. Qed.
Lemma delimiters_none d : d <= 0 -> delimiters d = [].
Proof. intros D. assert (NE : forall k, 0 < k -> (d =? k) = false) by (intros k KK; apply Z.eqb_neq; lia). unfold delimiters. now rewrite !NE by (vm_compute; reflexivity). Qed.
Lemma woven_start f input : f 0 <= 0 -> woven (not_at_start f) 0 input = woven f 0 input.
Proof.
  intros F. apply woven_ext. intros p. unfold not_at_start. destruct (Z.eqb_spec p 0) as [->|]; [|reflexivity]. now rewrite !delimiters_none by lia.
Qed.
(* delimiters have no length, and without them there is the text *)
Lemma delimiters_short d : Forall (fun x => snd x = 0) (delimiters d) /\ Forall (fun x => In (fst x) [8294; 8295; 8297]) (delimiters d).
Proof.
  unfold delimiters. repeat match goal with |- context [if ?b then _ else _] => destruct b end; split; repeat (apply Forall_cons || apply Forall_nil); cbn; auto.
Qed.
Lemma filter_none {A} (q : A -> bool) l : Forall (fun x => q x = false) l -> filter q l = [].
Proof. induction 1 as [|x l E H IH]; [reflexivity|]. cbn [filter]. now rewrite E. Qed.
Lemma woven_filter f : forall input pos, Forall (fun x => 0 < snd x) input -> filter (fun x => 0 <? snd x) (woven f pos input) = input.
Proof.
  induction input as [|[r len] t IH]; intros pos L; cbn [woven]; rewrite filter_app.
  - rewrite filter_none; [reflexivity|]. eapply Forall_impl; [|exact (proj1 (delimiters_short _))]. cbv beta. intros x ->. reflexivity.
  - inversion L as [|? ? L1 L2]; subst. cbn [snd] in L1. rewrite filter_none.
    + cbn [app filter snd]. destruct (Z.ltb_spec 0 len); [|lia]. now rewrite IH.
    + eapply Forall_impl; [|exact (proj1 (delimiters_short _))]. cbv beta. intros x ->. reflexivity.
Qed.
Lemma woven_total md props upper f : delimiters_known props upper -> forall input pos, total (para md props (woven f pos input)) = total (para md props input).
Proof.
  intros (A & B & C & _).
  assert (HD : forall ds, Forall (fun x => snd x = 0) ds -> Forall (fun x => In (fst x) [8294; 8295; 8297]) ds -> forall rest, total (para md props (ds ++ rest)) = total (para md props rest)).
  { induction ds as [|[r len] ds IH]; intros S F rest; [reflexivity|]. inversion S as [|? ? S1 S2]; subst. inversion F as [|? ? F1 F2]; subst. cbn [snd fst] in *. subst len. cbn [app para].
    assert (E : fst (props r) =? cB = false) by (cbn in F1; destruct F1 as [<-|[<-|[<-|[]]]]; rewrite ?A, ?B, ?C; reflexivity). cbn [fst]. rewrite E. cbn [andb].
    unfold total in *. cbn [fold_right snd]. now rewrite IH. }
  induction input as [|[r len] t IH]; intros pos; cbn [woven]; (rewrite HD; [|apply delimiters_short|apply delimiters_short]); [reflexivity|].
  cbn [para]. destruct (_ && _); [reflexivity|]. unfold total in *. cbn [fold_right snd]. now rewrite IH.
Qed.
Lemma woven_lens f : forall input pos, Forall (fun x => 0 < snd x) input -> lens_ok (woven f pos input).
Proof.
  unfold lens_ok. induction input as [|[r len] t IH]; intros pos L; cbn [woven]; apply Forall_app; (split; [eapply Forall_impl; [|exact (proj1 (delimiters_short _))]; cbv beta; intros x ->; lia|]); [constructor|].
  inversion L as [|? ? L1 L2]; subst. cbn [snd] in L1. constructor; [cbn [snd]; lia|]. now apply IH.
Qed.
