(* TrieWords.v -- insertion and lookup of words in the hash trie. *)
From Coq Require Import List ZArith Lia Bool Sorted.
From Verif Require Import Base Trie Rules TrieProofs TrieSteps TrieMove.
Import ListNotations.
Open Scope Z_scope.

(* Inserting the letter c below p relocates the family of p: the place of the new node is taken by another family. *)
Definition moves (t : trie) (p c : Z) : bool :=
  negb (L t p =? 0) && negb (C t (L t p + c) =? c) && negb (C t (L t p + c) =? 0).
(* No relocation takes place when a word, or a list of words, is inserted. *)
Fixpoint quiet_loop (t : trie) (p n : Z) (buf : list Z) : bool :=
  match buf with
  | [] => true
  | c :: rest =>
      negb (moves t p (correct t c)) &&
      match advanceToChild t p (correct t c) (n + 1) with Ok (p', t') => quiet_loop t' p' (n + 1) rest | _ => true end
  end.
Definition quiet (t : trie) (w : list Z) : bool := match w with [] => true | c :: rest => quiet_loop t (correct t c) 0 rest end.
(* the words one after the other, with their positions *)
Fixpoint alloc_words (t : trie) (ws : list (list Z)) : res (list Z * trie) :=
  match ws with
  | [] => Ok ([], t)
  | w :: rest => let* (p, t1) := AllocPositionForWord t w in let* (ps, t2) := alloc_words t1 rest in Ok (p :: ps, t2)
  end.
Fixpoint quiet_words (t : trie) (ws : list (list Z)) : bool :=
  match ws with
  | [] => true
  | w :: rest => quiet t w && match AllocPositionForWord t w with Ok (_, t1) => quiet_words t1 rest | _ => true end
  end.

Section Words.
Context (N K : Z).
Notation inv := (inv N K). Notation node := (node N K). Notation head := (head N K). Notation cell := (cell N). Notation letter := (letter K).
Notation shape := (shape N K). Notation added := (added N K). Notation At := (At K). Notation family := (family N K).

Lemma moveFamily_ok t u p c n : inv t -> At t u p -> L t p <> 0 -> letter c -> C t (L t p + c) <> c ->
  moveFamily t p c n = Panic \/ exists h t' ks, moveFamily t p c n = Ok (h + c, t') /\ home N K t p h ks /\ moved (L t p :: ks) (h - L t p) t t' /\
    shape t' /\ t_frozen t' = t_frozen t /\ zlen (t_sib t') = N /\ C t' (h + c) = 0 /\ h <> L t p.
Proof.
  intros I A NZ R NC. pose proof (i_shape _ _ t I) as S. pose proof (s_K _ _ t S) as HK. pose proof (s_N _ _ t S) as HN. pose proof (At_node _ _ _ _ _ I A) as P.
  unfold moveFamily. destruct (nominal_ok N K t n S) as (h0 & -> & R0). cbn [rbind]. rewrite (link_ok N K) by (auto; apply P). cbn [rbind].
  destruct (i_link _ _ t I p P NZ) as [H1 H2]. destruct (i_fam _ _ t I _ H1 NZ) as (ks & FA). destruct (i_head _ _ t I _ H1 NZ) as (H3 & _).
  destruct (home_ok N K t (L t p) c ks I R H1 NZ FA tolerance h0 R0) as [->|(h & -> & RH & FC & FH)]; [auto|]. cbn [rbind]. right.
  assert (HO : home N K t p h ks).
  { constructor; auto.
    - intros X. destruct FA as (_ & _ & _ & FA). apply FA in X. destruct X as [_ X]. now apply (At_irrefl N K t u p I A NZ).
    - intros x [<-|X]; apply FH; auto. }
  destruct (move_loop_ok N K h (L t p) (L t p) 256 ks t (L t p)) as (t' & E & S' & F' & Z' & M).
  - exact S.
  - apply (i_sib _ _ t I).
  - apply FA.
  - constructor; [|apply desc_nodup; apply FA]. intros X. apply (home_kid N K t p h ks HO) in X. lia.
  - apply H1.
  - intros X. apply (home_kid N K t p h ks HO) in X. lia.
  - auto.
  - intros x X EQ. assert (X0 : C t (x + (h - L t p)) = 0) by (apply FH; destruct X; auto). rewrite <- EQ in X0. destruct H1. lia.
  - exact (home_movable N K t p h ks HO).
  - assert (G : Z.of_nat (length ks) <= Z.max 0 (L t p + K - (L t p + 1))). { apply desc_length; [apply FA|]. apply Forall_forall. intros x X. apply (home_kid N K t p h ks HO) in X. lia. } lia.
  - rewrite E. cbn [rbind]. unfold TrieProofs.letter in R. rewrite (u8_id (h + c)) by lia. exists h, t', ks. split; [reflexivity|]. do 5 (split; [auto|]). split.
    + destruct (Z.eq_dec (C t' (h + c)) 0) as [|NZ']; auto. exfalso. destruct (moved_gone t t' p h ks M _ NZ') as [(x & X & EQ)|(_ & _ & EQ & _)]; [|congruence].
      assert (x = L t p + c) by lia. subst x. destruct X as [X|X]; [lia|]. destruct (home_kid N K t p h ks HO _ X) as (_ & X2 & _). lia.
    + intros ->. assert (X0 : C t (L t p + (L t p - L t p)) = 0) by (apply FH; auto). replace (L t p + (L t p - L t p)) with (L t p) in X0 by lia. destruct H1. lia.
Qed.

(* the words below p are the members of the family of p *)
Lemma family_word t u p h ks v x : home N K t p h ks -> At t u p -> At t v x -> In x ks -> exists d, v = u ++ [d].
Proof.
  intros HO U A X. pose proof (o_inv _ _ _ _ _ _ HO) as I. destruct (home_kid N K t p h ks HO _ X) as (_ & X2 & X3). destruct (home_head N K t p h ks HO) as (_ & H2 & H3).
  destruct (last_app v) as (w & d & ->); [now apply At_word in A|]. destruct (At_last N K _ _ _ _ I A) as (E & T & U').
  destruct w as [|a w]; [specialize (T eq_refl); lia|]. destruct U' as (_ & _ & P & _); [discriminate|]. replace (x - d) with (L t p) in P by lia. rewrite H2 in P.
  exists d. f_equal. exact (At_inj N K _ _ _ _ I P U).
Qed.

Definition reached (t : trie) (v : list Z) : Prop := exists y, At t v y.

Lemma advance_ok t u p c n : inv t -> At t u p -> letter c ->
  advanceToChild t p c n = Panic \/ exists q t', advanceToChild t p c n = Ok (q, t') /\ inv t' /\ At t' (u ++ [c]) q /\
    (forall v, reached t' v <-> reached t v \/ v = u ++ [c]) /\
    (moves t p c = false -> forall v y, At t v y -> At t' v y) /\
    (forall v y, At t v y -> (forall d, v <> u ++ [d]) -> At t' v y) /\
    (moves t p c = true -> forall d y y', At t (u ++ [d]) y -> At t' (u ++ [d]) y' -> y <> y').
Proof.
  intros I U R. pose proof (i_shape _ _ t I) as S. pose proof (s_K _ _ t S) as HK. pose proof (s_N _ _ t S) as HN. pose proof (At_node _ _ _ _ _ I U) as P.
  unfold advanceToChild. rewrite (link_ok N K) by (auto; apply P). cbn [rbind]. rewrite (i_free _ _ t I). unfold moves. destruct (Z.eqb_spec (L t p) 0) as [E0|NZ].
  - destruct (insertFirstborn_ok N K t p c n I P E0 R) as [->|(h & t' & -> & I' & AD)]; [auto|]. right. exists (h + c), t'. split; [reflexivity|]. split; [exact I'|].
    pose proof (added_At N K t t' u p h c I U AD) as W. split; [apply W; auto|]. split; [|split; [|split]].
    + intros v. unfold reached. split.
      * intros (y & Y). apply W in Y. destruct Y as [Y|[-> _]]; eauto.
      * intros [(y & Y)| ->]; [exists y; apply W; auto|exists (h + c); apply W; auto].
    + intros _ v y Y. apply W. auto.
    + intros v y Y _. apply W. auto.
    + discriminate.
  - destruct (i_link _ _ t I p P NZ) as [H1 H2]. destruct (i_head _ _ t I _ H1 NZ) as (H3 & _). assert (R' := R). unfold TrieProofs.letter in R'. cbv zeta.
    rewrite (u8_id (L t p + c)) by lia. rewrite (ch_ok N K) by (auto; unfold TrieProofs.cell; lia). cbn [rbind negb andb]. destruct (Z.eqb_spec (C t (L t p + c)) c) as [EC|NC].
    + right. exists (L t p + c), t. split; [reflexivity|]. split; [exact I|]. assert (Q : At t (u ++ [c]) (L t p + c)) by (constructor; auto). split; [exact Q|].
      split; [|split; [|split]]; auto; [|discriminate]. intros v. split; auto. intros [X| ->]; auto. exists (L t p + c). auto.
    + destruct (Z.eqb_spec (C t (L t p + c)) 0) as [EF|NF]; cbn [negb andb].
      * cbn [rbind]. destruct (insertChild_ok N K t p (L t p) c I P eq_refl NZ R EF) as (t' & -> & I' & AD). right. exists (L t p + c), t'. split; [reflexivity|]. split; [exact I'|].
        pose proof (added_At N K t t' u p _ c I U AD) as W. split; [apply W; auto|]. split; [|split; [|split]].
        -- intros v. unfold reached. split.
           ++ intros (y & Y). apply W in Y. destruct Y as [Y|[-> _]]; eauto.
           ++ intros [(y & Y)| ->]; [exists y; apply W; auto|exists (L t p + c); apply W; auto].
        -- intros _ v y Y. apply W. auto.
        -- intros v y Y _. apply W. auto.
        -- discriminate.
      * destruct (moveFamily_ok t u p c n I U NZ R NC) as [->|(h & t1 & ks & -> & HO & M & S1 & F1 & Z1 & FC & HL)]; [auto|]. cbn [rbind].
        pose proof (moved_inv N K t t1 p h ks HO M S1 F1 Z1) as I1. pose proof (moved_p N K t t1 p h ks HO M) as (P1 & P2 & P3).
        assert (U1 : At t1 u p) by (apply (moved_At_to N K t t1 p h ks HO M u p U), (o_out _ _ _ _ _ _ HO)).
        pose proof (o_h _ _ _ _ _ _ HO) as RH.
        destruct (insertChild_ok N K t1 p h c I1 (At_node _ _ _ _ _ I1 U1) P1) as (t' & -> & I' & AD); [lia|exact R|exact FC|]. right. exists (h + c), t'. split; [reflexivity|]. split; [exact I'|].
        pose proof (added_At N K t1 t' u p h c I1 U1 AD) as W. split; [apply W; auto|].
        assert (FW : forall v y, At t v y -> (In y ks /\ At t' v (y + (h - L t p))) \/ (~ In y ks /\ At t' v y)).
        { intros v y Y. destruct (moved_At_to N K t t1 p h ks HO M v y Y) as [Q1 Q2]. destruct (in_dec Z.eq_dec y ks) as [X|X]; [left|right]; (split; [exact X|apply W; auto]). }
        split; [|split; [|split]].
        -- intros v. unfold reached. split.
           ++ intros (y & Y). apply W in Y. destruct Y as [Y|[-> _]]; [|auto]. destruct (moved_At_from N K t t1 p h ks HO M S1 F1 Z1 v y Y) as (x & X & _). left. eauto.
           ++ intros [(y & Y)| ->]; [destruct (FW v y Y) as [[_ Q]|[_ Q]]; eauto|exists (h + c); apply W; auto].
        -- discriminate.
        -- intros v y Y ND. destruct (FW v y Y) as [[X _]|[_ Q]]; [|exact Q]. destruct (family_word t u p h ks v y HO U Y X) as [d ->]. now destruct (ND d).
        -- intros _ d y y' Y Y'. assert (X : In y ks).
           { destruct (At_last N K _ _ _ _ I Y) as (E & _ & U'). destruct (At_word _ _ _ _ U) as [NU _]. destruct (U' NU) as (_ & _ & Q & Q2).
             assert (L t (y - d) = p) by exact (At_fun _ _ _ _ _ Q U). destruct (o_fam _ _ _ _ _ _ HO) as (_ & _ & _ & FA). apply FA. split; [now apply (At_node N K t (u ++ [d]))|]. congruence. }
           destruct (FW _ y Y) as [[_ Q]|[NX _]]; [|tauto]. pose proof (At_fun _ _ _ _ _ Q Y'). lia.
Qed.

(* ---- whole words ---- *)
(* the letters as the client knows them: 0 stands for the last category *)
Definition raw (c : Z) : Prop := 0 <= c < K - 1.
Definition corr (c : Z) : Z := if c =? 0 then K - 1 else c.
Lemma corr_letter c : 2 <= K -> raw c -> letter (corr c).
Proof. unfold raw, corr, TrieProofs.letter. destruct (Z.eqb_spec c 0); lia. Qed.
Lemma corr_inj c d : raw c -> raw d -> corr c = corr d -> c = d.
Proof. unfold raw, corr. destruct (Z.eqb_spec c 0), (Z.eqb_spec d 0); lia. Qed.
Lemma corr_ok t c : shape t -> correct t c = corr c.
Proof. intros S. unfold correct, corr. now rewrite (s_cat _ _ t S). Qed.
Lemma map_corr_inj v w : Forall raw v -> Forall raw w -> map corr v = map corr w -> v = w.
Proof.
  revert w. induction v as [|c v IH]; intros [|d w] F G E; cbn [map] in E; try discriminate; auto.
  inversion F; inversion G; subst. injection E as E1 E2. f_equal; [now apply corr_inj|auto].
Qed.

Lemma alloc_loop_ok buf : forall t u p n, inv t -> At t u p -> Forall raw buf ->
  alloc_loop t p n buf = Panic \/ exists q t', alloc_loop t p n buf = Ok (q, t') /\ inv t' /\ At t' (u ++ map corr buf) q /\
    (forall v, reached t' v <-> reached t v \/ exists a b, buf = a ++ b /\ v = u ++ map corr a) /\
    (quiet_loop t p n buf = true -> forall v y, At t v y -> At t' v y) /\
    (forall v y, At t v y -> (forall d s, v <> u ++ d :: s) -> At t' v y) /\
    (quiet_loop t p n buf = false -> exists v y y', At t v y /\ At t' v y' /\ y <> y').
Proof.
  induction buf as [|c buf IH]; intros t u p n I U F; cbn [alloc_loop quiet_loop map].
  - right. exists p, t. split; [reflexivity|]. split; [exact I|]. rewrite app_nil_r. split; [exact U|]. split; [|split; [auto|split; [auto|discriminate]]].
    intros v. split; [auto|]. intros [X|(a & b & E & ->)]; auto. symmetry in E. apply app_eq_nil in E. destruct E as [-> _]. cbn. rewrite app_nil_r. exists p. exact U.
  - inversion F as [|? ? R F']; subst. pose proof (i_shape _ _ t I) as S. pose proof (s_K _ _ t S) as HK. rewrite (corr_ok t c S). assert (R' := corr_letter c HK R).
    destruct (advance_ok t u p (corr c) (n + 1) I U R') as [->|(q & t1 & -> & I1 & Q & W & ST & KP & MV)]; [auto|]. cbn [rbind].
    destruct (IH t1 (u ++ [corr c]) q (n + 1) I1 Q F') as [->|(q' & t' & -> & I' & Q' & W' & ST' & KP' & MV')]; [auto|]. right. exists q', t'. split; [reflexivity|]. split; [exact I'|].
    rewrite <- app_assoc in Q'. split; [exact Q'|]. split; [|split; [|split]].
    + intros v. rewrite W', W. split.
      * intros [[X| ->]|(a & b & -> & ->)]; [auto| |].
        -- right. exists [c], buf. auto.
        -- right. exists (c :: a), b. cbn [map app]. rewrite <- app_assoc. auto.
      * intros [X|(a & b & E & ->)]; [auto|]. destruct a as [|a0 a].
        -- left. left. exists p. cbn. now rewrite app_nil_r.
        -- injection E as <- E. right. exists a, b. cbn [map app]. rewrite <- app_assoc. auto.
    + intros Qt v y Y. apply andb_true_iff in Qt. destruct Qt as [Q1 Q2]. apply ST'; [exact Q2|]. apply ST; auto. now apply negb_true_iff.
    + intros v y Y NX. apply KP'; [apply KP; [exact Y|intros d; apply NX]|]. intros d s. rewrite <- app_assoc. apply NX.
    + intros Qt. destruct (moves t p (corr c)) eqn:EM; cbn [negb andb] in Qt.
      * unfold moves in EM. apply andb_true_iff in EM. destruct EM as [EM _]. apply andb_true_iff in EM. destruct EM as [NZ NC]. apply negb_true_iff in NZ, NC. apply Z.eqb_neq in NZ, NC.
        pose proof (At_node _ _ _ _ _ I U) as P. destruct (i_link _ _ t I p P NZ) as [H1 H2]. destruct (i_fam _ _ t I _ H1 NZ) as (ks & NK & _ & _ & FA).
        destruct ks as [|x ks]; [congruence|]. destruct (proj1 (FA x) (or_introl eq_refl)) as [X1 X2]. destruct X1 as [X0 X1].
        assert (LX : letter (C t x)) by (unfold TrieProofs.letter; pose proof (i_small _ _ t I x (conj X0 X1)); lia).
        assert (Y : At t (u ++ [C t x]) x). { replace x with (L t p + C t x) at 2 by lia. constructor; auto. f_equal. lia. }
        assert (D : C t x <> corr c). { intros E. apply NC. replace (L t p + corr c) with x by lia. exact E. }
        destruct (proj2 (W (u ++ [C t x]))) as [y1 Y1]; [left; exists x; exact Y|]. exists (u ++ [C t x]), x, y1. split; [exact Y|]. split.
        -- apply KP'; [exact Y1|]. intros d s E. rewrite <- app_assoc in E. apply app_inv_head in E. cbn [app] in E. injection E as E _. auto.
        -- eapply MV; eauto. 
      * destruct (MV' Qt) as (v & y & y' & Y & Y' & NE). destruct (proj1 (W v)) as [[x X]| ->]; [now exists y| |].
        -- exists v, x, y'. split; [exact X|]. split; [exact Y'|]. rewrite (At_fun _ _ _ _ _ (ST eq_refl v x X) Y). exact NE.
        -- destruct NE. apply (At_fun K t' (u ++ [corr c])); [|exact Y']. apply KP'; [exact Y|]. intros d s E. apply (f_equal (@length Z)) in E. rewrite !app_length in E. cbn [length] in E. lia.
Qed.

Definition word (w : list Z) : Prop := w <> [] /\ Forall raw w.
Definition prefix (a w : list Z) : Prop := exists b, w = a ++ b.

Lemma alloc_ok t w n : inv t -> word w -> n = 0 ->
  AllocPositionForWord t w = Panic \/ exists q t', AllocPositionForWord t w = Ok (q, t') /\ inv t' /\ At t' (map corr w) q /\
    (forall v, word v -> reached t' (map corr v) <-> reached t (map corr v) \/ prefix v w) /\
    (quiet t w = true -> forall v y, At t v y -> At t' v y) /\
    (quiet t w = false -> exists v y y', At t v y /\ At t' v y' /\ y <> y').
Proof.
  intros I [NE F] ->. destruct w as [|c w]; [congruence|]. inversion F as [|? ? R F']; subst. pose proof (i_shape _ _ t I) as S. pose proof (s_K _ _ t S) as HK.
  unfold AllocPositionForWord, quiet. rewrite (corr_ok t c S). assert (U : At t [corr c] (corr c)) by (constructor; now apply corr_letter).
  destruct (alloc_loop_ok w t _ _ 0 I U F') as [->|(q & t' & -> & I' & Q & W & ST & _ & MV)]; [auto|]. right. exists q, t'. split; [reflexivity|]. split; [exact I'|]. split; [exact Q|]. split; [|split; [exact ST|exact MV]].
  intros v [NV FV]. rewrite W. split; (intros [X|X]; [auto|]).
  - destruct X as (a & b & -> & E). right. exists b. assert (v = c :: a); [|subst v; reflexivity]. apply map_corr_inj; auto. apply Forall_app in F'. constructor; tauto.
  - destruct X as (b & E). destruct v as [|d v]; [congruence|]. injection E as <- ->. right. exists v, b. auto.
Qed.

Lemma alloc_words_ok ws : forall t, inv t -> Forall word ws ->
  alloc_words t ws = Panic \/ exists ps t', alloc_words t ws = Ok (ps, t') /\ inv t' /\
    (forall v, word v -> reached t' (map corr v) <-> reached t (map corr v) \/ exists w, In w ws /\ prefix v w) /\
    (quiet_words t ws = true -> forall v y, At t v y -> At t' v y).
Proof.
  induction ws as [|w ws IH]; intros t I F; cbn [alloc_words quiet_words].
  - right. exists [], t. split; [reflexivity|]. split; [exact I|]. split; [|auto]. intros v _. split; [auto|]. intros [X|(w & [] & _)]. exact X.
  - inversion F as [|? ? W F']; subst. destruct (alloc_ok t w 0 I W eq_refl) as [->|(q & t1 & -> & I1 & Q & R1 & ST & _)]; [auto|]. cbn [rbind].
    destruct (IH t1 I1 F') as [->|(ps & t' & -> & I' & R' & ST')]; [auto|]. cbn [rbind]. right. exists (q :: ps), t'. split; [reflexivity|]. split; [exact I'|]. split.
    + intros v V. rewrite R', R1 by auto. split.
      * intros [[X|X]|(w' & X & Y)]; [auto| |]; right; [exists w|exists w']; cbn [In]; auto.
      * intros [X|(w' & [<-|X] & Y)]; [auto|auto|]. right. eauto.
    + intros Qt v y Y. apply andb_true_iff in Qt. destruct Qt as [Q1 Q2]. auto.
Qed.
Lemma alloc_words_app ws1 ws2 t : alloc_words t (ws1 ++ ws2) = let* (ps1, t1) := alloc_words t ws1 in let* (ps2, t2) := alloc_words t1 ws2 in Ok (ps1 ++ ps2, t2).
Proof.
  revert t. induction ws1 as [|w ws IH]; intros t; cbn [app alloc_words].
  - cbn [rbind]. destruct (alloc_words t ws2) as [[ps t2]| |]; reflexivity.
  - destruct (AllocPositionForWord t w) as [[p t1]| |]; [|reflexivity|reflexivity]. cbn [rbind]. rewrite IH. destruct (alloc_words t1 ws) as [[ps1 t2]| |]; [|reflexivity|reflexivity]. cbn [rbind].
    destruct (alloc_words t2 ws2) as [[ps2 t3]| |]; reflexivity.
Qed.

(* ---- lookup ---- *)
Lemma walk_dead t p n w : forall q, walk t (mkti false p n) q w = Ok (match w with [] => q | _ => 0 end).
Proof. revert p n. induction w as [|c w IH]; intros p n q; cbn [walk]; [reflexivity|]. cbn [Next ti_live negb rbind]. rewrite IH. now destruct w. Qed.
Lemma At_prefix t a b : a <> [] -> reached t (a ++ b) -> reached t a.
Proof.
  intros NE. induction b as [|c b IH] using rev_ind; [now rewrite app_nil_r|]. intros (y & Y). rewrite app_assoc in Y. apply At_inv in Y. destruct Y as [[E _]|(p & P & _)].
  - apply app_eq_nil in E. tauto.
  - apply IH. exists p. exact P.
Qed.
Lemma walk_ok t : inv t -> forall w u p, At t u p -> Forall raw w ->
  exists q, walk (Freeze t) (mkti true p 1) p w = Ok q /\ ((q <> 0 /\ At t (u ++ map corr w) q) \/ (q = 0 /\ ~ reached t (u ++ map corr w))).
Proof.
  intros I. pose proof (i_shape _ _ t I) as S. pose proof (s_K _ _ t S) as HK. pose proof (s_N _ _ t S) as HN.
  assert (SF : shape (Freeze t)) by (destruct S; constructor; auto). 
  assert (N0 : forall v q, At t v q -> q <> 0). { intros v q A ->. apply (At_node N K) in A; auto. destruct A as [_ A]. destruct (i_root _ _ t I) as [A1 _]. lia. }
  induction w as [|c w IH]; intros u p U F; cbn [walk map].
  - exists p. rewrite app_nil_r. split; [reflexivity|]. left. split; [|exact U]. apply (N0 u p U).
  - inversion F as [|? ? R F']; subst. pose proof (At_node _ _ _ _ _ I U) as P. unfold Next at 1. cbn [ti_live ti_n ti_pos negb Z.eqb]. 
    rewrite u8_id by (unfold raw in R; lia). rewrite (corr_ok (Freeze t) c SF). assert (R' := corr_letter c HK R). set (cc := corr c) in *.
    unfold advanceToChild. rewrite (link_ok N K) by (auto; apply P). change (L (Freeze t) p) with (L t p). change (t_frozen (Freeze t)) with true. cbn [rbind].
    assert (DEAD : forall q, walk (Freeze t) (mkti (negb (0 =? 0)) 0 1) q w = Ok (match w with [] => q | _ => 0 end)) by (intros q; apply walk_dead).
    assert (NO : ~ reached t (u ++ [cc]) -> exists q, walk (Freeze t) (mkti (negb (0 =? 0)) 0 1) 0 w = Ok q /\ ((q <> 0 /\ At t (u ++ cc :: map corr w) q) \/ (q = 0 /\ ~ reached t (u ++ cc :: map corr w)))).
    { intros NR. exists 0. rewrite DEAD. split; [now destruct w|]. right. split; [reflexivity|]. intros X. apply NR. replace (u ++ cc :: map corr w) with ((u ++ [cc]) ++ map corr w) in X by (rewrite <- app_assoc; reflexivity).
      revert X. apply At_prefix. destruct u; discriminate. }
    assert (NR0 : (L t p = 0 \/ C t (L t p + cc) <> cc) -> ~ reached t (u ++ [cc])).
    { intros Q (y & Y). apply At_inv in Y. destruct Y as [[E _]|(p' & P' & Y1 & Y2 & _)]; [apply At_word in U; tauto|]. pose proof (At_fun _ _ _ _ _ P' U). subst p'. tauto. }
    destruct (Z.eqb_spec (L t p) 0) as [E0|NZ]; [cbn [rbind]; apply NO; auto|].
    destruct (i_link _ _ t I p P NZ) as [H1 H2]. destruct (i_head _ _ t I _ H1 NZ) as (H3 & _). unfold TrieProofs.letter in R'. cbv zeta.
    rewrite (u8_id (L t p + cc)) by lia. rewrite (ch_ok N K) by (auto; unfold TrieProofs.cell; lia). change (C (Freeze t) (L t p + cc)) with (C t (L t p + cc)). cbn [rbind].
    destruct (Z.eqb_spec (C t (L t p + cc)) cc) as [EC|NC]; cbn [rbind]; [|apply NO; auto].
    replace (L t p + cc =? 0) with false by lia. cbn [negb]. assert (Q : At t (u ++ [cc]) (L t p + cc)) by (constructor; auto).
    destruct (IH _ _ Q F') as (q & E & D). exists q. split; [exact E|]. rewrite <- app_assoc in D. exact D.
Qed.
Lemma lookup_ok t w : inv t -> word w -> exists q, walk (Freeze t) Iterator0 0 w = Ok q /\ ((q <> 0 /\ At t (map corr w) q) \/ (q = 0 /\ ~ reached t (map corr w))).
Proof.
  intros I [NE F]. destruct w as [|c w]; [congruence|]. inversion F as [|? ? R F']; subst. pose proof (i_shape _ _ t I) as S. pose proof (s_K _ _ t S) as HK. pose proof (s_N _ _ t S) as HN.
  assert (SF : shape (Freeze t)) by (destruct S; constructor; auto). assert (R' := corr_letter c HK R). unfold TrieProofs.letter in R'.
  cbn [walk]. unfold Next at 1, Iterator0. cbn [ti_live ti_n ti_pos negb Z.eqb]. rewrite u8_id by (unfold raw in R; lia). rewrite (corr_ok (Freeze t) c SF).
  rewrite (ch_ok N K) by (auto; unfold TrieProofs.cell; lia). cbn [rbind]. change (C (Freeze t) (corr c)) with (C t (corr c)). rewrite (i_top _ _ t I) by lia.
  cbn [map]. change (corr c :: map corr w) with ([corr c] ++ map corr w). apply walk_ok; auto. constructor. now apply corr_letter.
Qed.
(* every word of a trie is the image of a word of categories *)
Lemma uncorr v : 2 <= K -> v <> [] -> Forall letter v -> exists w, word w /\ map corr w = v.
Proof.
  intros HK NE F. exists (map (fun c => if c =? K - 1 then 0 else c) v). split; [split|].
  - destruct v; [congruence|discriminate].
  - clear NE. induction F as [|c l Hc F IH]; cbn [map]; constructor; [|exact IH]. unfold raw, TrieProofs.letter in *. destruct (Z.eqb_spec c (K - 1)); lia.
  - clear NE. induction F as [|c l Hc F IH]; cbn [map]; [reflexivity|]. f_equal; [|exact IH]. unfold corr, TrieProofs.letter in *. destruct (Z.eqb_spec c (K - 1)); [cbn; lia|]. destruct (Z.eqb_spec c 0); lia.
Qed.

(* On a frozen trie AllocPositionForWord is a lookup. *)
Lemma frozen_loop t : inv t -> forall w p n, (p = 0 \/ node t p) -> Forall raw w -> exists q, alloc_loop (Freeze t) p n w = Ok (q, Freeze t) /\ walk (Freeze t) (mkti (negb (p =? 0)) p 1) p w = Ok q.
Proof.
  intros I. pose proof (i_shape _ _ t I) as S. pose proof (s_K _ _ t S) as HK. pose proof (s_N _ _ t S) as HN. destruct (i_root _ _ t I) as [R0 L0].
  assert (SF : shape (Freeze t)) by (destruct S; constructor; auto).
  induction w as [|c w IH]; intros p n P F; cbn [alloc_loop walk]; [eauto|]. inversion F as [|? ? R F']; subst. assert (R' := corr_letter c HK R). unfold TrieProofs.letter in R'.
  destruct P as [->|P].
  - rewrite (corr_ok (Freeze t) c SF). unfold advanceToChild. rewrite (link_ok N K) by (auto; unfold TrieProofs.cell; lia). change (L (Freeze t) 0) with (L t 0). rewrite L0. cbn [Z.eqb rbind].
    change (t_frozen (Freeze t)) with true. cbn [rbind]. destruct (IH 0 (n + 1) (or_introl eq_refl) F') as (q & E1 & E2). exists q. split; [exact E1|].
    cbn [negb Z.eqb] in *. cbn [Next ti_live negb rbind]. exact E2.
  - assert (NP : p <> 0) by (intros ->; destruct P as [_ P]; lia). unfold Next. cbn [ti_live ti_n ti_pos]. replace (p =? 0) with false by lia. cbn [negb Z.eqb].
    rewrite (corr_ok (Freeze t) c SF). rewrite (u8_id c) by (unfold raw in R; lia). rewrite (corr_ok (Freeze t) c SF).
    unfold advanceToChild. rewrite (link_ok N K) by (auto; apply P). change (L (Freeze t) p) with (L t p). change (t_frozen (Freeze t)) with true. cbn [rbind].
    destruct (Z.eqb_spec (L t p) 0) as [E0|NZ]; cbn [rbind]; [apply IH; auto|]. destruct (i_link _ _ t I p P NZ) as [H1 H2]. destruct (i_head _ _ t I _ H1 NZ) as (H3 & _). cbv zeta.
    rewrite (u8_id (L t p + corr c)) by lia. rewrite (ch_ok N K) by (auto; unfold TrieProofs.cell; lia). change (C (Freeze t) (L t p + corr c)) with (C t (L t p + corr c)). cbn [rbind].
    destruct (Z.eqb_spec (C t (L t p + corr c)) (corr c)) as [EC|NC]; cbn [rbind]; apply IH; auto. right. split; [unfold TrieProofs.cell; lia|lia].
Qed.
Lemma frozen_ok t w : inv t -> word w -> exists q, AllocPositionForWord (Freeze t) w = Ok (q, Freeze t) /\ walk (Freeze t) Iterator0 0 w = Ok q.
Proof.
  intros I [NE F]. destruct w as [|c w]; [congruence|]. inversion F as [|? ? R F']; subst. pose proof (i_shape _ _ t I) as S. pose proof (s_K _ _ t S) as HK. pose proof (s_N _ _ t S) as HN.
  assert (SF : shape (Freeze t)) by (destruct S; constructor; auto). assert (R' := corr_letter c HK R). unfold TrieProofs.letter in R'.
  cbn [AllocPositionForWord walk]. unfold Next at 1, Iterator0. cbn [ti_live ti_n ti_pos negb Z.eqb]. rewrite u8_id by (unfold raw in R; lia). rewrite !(corr_ok (Freeze t) c SF).
  rewrite (ch_ok N K) by (auto; unfold TrieProofs.cell; lia). cbn [rbind]. change (C (Freeze t) (corr c)) with (C t (corr c)). rewrite (i_top _ _ t I) by lia.
  assert (P : node t (corr c)). { split; [unfold TrieProofs.cell; lia|]. rewrite (i_top _ _ t I) by lia. lia. }
  destruct (frozen_loop t I w (corr c) 0 (or_intror P) F') as (q & E1 & E2). exists q. split; [exact E1|]. replace (corr c =? 0) with false in E2 by lia. exact E2.
Qed.
End Words.

(* ---- the empty trie ---- *)
Lemma get_app a b i : 0 <= i -> get (a ++ b) i = if i <? zlen a then get a i else get b (i - zlen a).
Proof. intros R. unfold get. rewrite zget_app. now destruct (i <? zlen a). Qed.
Lemma get_cons_app h (l : list Z) i : get (h :: l) i = get ([h] ++ l) i.
Proof. reflexivity. Qed.
Lemma get_repeat n i : get (repeat 0 n) i = 0.
Proof. unfold get. destruct (zget (repeat 0 n) i) as [v|] eqn:E; auto. unfold zget in E. destruct (_ && _); [|discriminate]. apply nth_error_In in E. now apply repeat_spec in E. Qed.
Lemma get_seq a n i : 0 <= i < Z.of_nat n -> get (map Z.of_nat (seq a n)) i = Z.of_nat a + i.
Proof.
  intros R. unfold get, zget, zlen. rewrite map_length, seq_length. replace ((0 <=? i) && (i <? Z.of_nat n)) with true by lia.
  rewrite (map_nth_error Z.of_nat (Z.to_nat i) (seq a n) (d := (a + Z.to_nat i)%nat)); [lia|]. rewrite nth_error_nth' with (d := O) by (rewrite seq_length; lia). rewrite seq_nth by lia. reflexivity.
Qed.
Lemma new_inv size cat t : NewTinyHashTrie size cat = Some t -> 1 <= cat -> 2 * (cat + 1) < size <= 255 ->
  inv size (cat + 1) t /\ forall x, L t x = 0.
Proof.
  unfold NewTinyHashTrie. destruct (Z.ltb_spec 50 cat) as [|LE]; [discriminate|]. intros E R1 R2. injection E as <-. cbv zeta.
  set (t := mkt _ _ _ _ _ _ _ _ _).
  assert (L0 : forall x, L t x = 0) by (intros x; apply get_repeat).
  assert (ZL : forall n, zlen (repeat 0 n) = Z.of_nat n) by (intros n; unfold zlen; now rewrite repeat_length).
  assert (ZS : forall a n, zlen (map Z.of_nat (seq a n)) = Z.of_nat n) by (intros a n; unfold zlen; now rewrite map_length, seq_length).
  assert (CV : forall x, 0 <= x < size -> C t x = if x =? 0 then cat + 1 + 1 else if x <=? cat + 1 then x else 0).
  { intros x X. unfold C, t. cbn [t_ch]. unfold init_ch. rewrite get_cons_app, get_app by lia. change (zlen [cat + 1 + 1]) with 1.
    destruct (Z.eqb_spec x 0) as [->|]; [reflexivity|]. replace (x <? 1) with false by lia. rewrite get_app by lia. rewrite ZS. destruct (Z.leb_spec x (cat + 1)).
    - destruct (Z.ltb_spec (x - 1) (Z.of_nat (Z.to_nat (cat + 1)))); [|lia]. rewrite get_seq by lia. lia.
    - destruct (Z.ltb_spec (x - 1) (Z.of_nat (Z.to_nat (cat + 1)))); [lia|]. apply get_repeat. }
  split; [|exact L0].
  assert (H0 : forall h, head size (cat + 1) t h -> h = 0). { intros h [Hc E]. unfold cell in Hc. rewrite CV in E by exact Hc. destruct (Z.eqb_spec h 0); auto. destruct (Z.leb_spec h (cat + 1)); lia. }
  constructor.
  - constructor; unfold t; cbn [t_header t_span t_size t_catcnt t_link t_ch]; auto; try lia.
    + apply u8_id. lia.
    + rewrite ZL. lia.
    + unfold init_ch. rewrite zlen_cons, zlen_app, ZS, ZL. lia.
  - reflexivity.
  - unfold t. cbn [t_sib]. unfold init_sib. rewrite zlen_cons, zlen_app, ZS, ZL. lia.
  - intros x X. unfold cell in X. rewrite CV by exact X. destruct (Z.eqb_spec x 0); [lia|]. destruct (Z.leb_spec x (cat + 1)); lia.
  - rewrite CV by lia. auto.
  - intros c Hc. rewrite CV by lia. replace (c =? 0) with false by lia. now replace (c <=? cat + 1) with true by lia.
  - intros x [X1 X2]. unfold cell in X1. rewrite CV in * by lia. destruct (Z.eqb_spec x 0); [lia|]. destruct (Z.leb_spec x (cat + 1)); [|lia]. replace (x - x) with 0 by lia.
    split; [unfold cell; lia|]. rewrite CV by lia. reflexivity.
  - intros x [X1 X2]. unfold cell in X1. rewrite CV in * by lia. destruct (Z.eqb_spec x 0); [lia|]. destruct (Z.leb_spec x (cat + 1)); lia.
  - intros h H NZ. apply H0 in H. congruence.
  - intros p P NZ. rewrite L0 in NZ. congruence.
  - intros h H NZ. apply H0 in H. congruence.
Qed.
Lemma new_reached size cat t v : NewTinyHashTrie size cat = Some t -> 1 <= cat -> 2 * (cat + 1) < size <= 255 -> word (cat + 1) v ->
  (reached (cat + 1) t (map (corr (cat + 1)) v) <-> length v = 1%nat).
Proof.
  intros E R1 R2 [NE F]. destruct (new_inv size cat t E R1 R2) as [I L0]. destruct v as [|c v]; [congruence|]. inversion F as [|? ? R F']; subst. split.
  - intros (y & Y). destruct v as [|d v] using rev_ind; [reflexivity|]. rewrite app_comm_cons, map_app in Y. cbn [map] in Y. apply At_inv in Y. destruct Y as [[Y _]|(p & _ & Y & _)]; [discriminate|]. now rewrite L0 in Y.
  - destruct v as [|d v]; [|discriminate]. intros _. exists (corr (cat + 1) c). cbn [map]. constructor. apply corr_letter; [lia|exact R].
Qed.
