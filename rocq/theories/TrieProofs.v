(* TrieProofs.v -- the hash trie, for any size, alphabet and words: what is kept invariant by the insertion of a
   letter, and which words are found at which places before and after. *)
From Coq Require Import List ZArith Lia Bool Sorted.
From Verif Require Import Base Trie.
Import ListNotations.
Open Scope Z_scope.

Definition get (l : list Z) (i : Z) : Z := match zget l i with Some v => v | None => 0 end.
Definition L (t : trie) : Z -> Z := get (t_link t).
Definition B (t : trie) : Z -> Z := get (t_sib t).
Definition C (t : trie) : Z -> Z := get (t_ch t).

Lemma get_ok l i : 0 <= i < zlen l -> zget l i = Some (get l i).
Proof. intros R. apply zget_Some_iff in R. destruct R as [a E]. unfold get. now rewrite E. Qed.
Lemma get_set l l' i v j : zset l i v = Some l' -> get l' j = if j =? i then v else get l j.
Proof. intros E. unfold get. rewrite (zget_zset _ _ _ _ _ E). now destruct (j =? i). Qed.
Lemma u8_id x : 0 <= x < 256 -> u8 x = x.
Proof. intros R. unfold u8. apply Z.mod_small. lia. Qed.
Lemma u8_delta x a b : 0 <= x + (a - b) < 256 -> u8 (x + u8 (a - b)) = x + (a - b).
Proof. intros R. unfold u8. rewrite Zplus_mod_idemp_r. apply Z.mod_small. lia. Qed.

(* ---- the sibling lists ---- *)
Fixpoint chain (s : Z -> Z) (a : Z) (ks : list Z) (z : Z) : Prop :=
  match ks with [] => s a = z | k :: t => s a = k /\ chain s k t z end.
Definition desc : list Z -> Prop := StronglySorted Z.gt.

Lemma chain_app s a ks ls z : chain s a (ks ++ ls) z <-> chain s a ks (hd z ls) /\ (match ls with [] => True | l :: t => chain s l t z end).
Proof.
  revert a. induction ks as [|k ks IH]; intros a; cbn [app chain].
  - destruct ls as [|l t]; cbn [chain hd]; tauto.
  - rewrite IH. tauto.
Qed.
Lemma chain_ext s s' a ks z : (forall x, x = a \/ In x ks -> s' x = s x) -> chain s a ks z -> chain s' a ks z.
Proof.
  revert a. induction ks as [|k ks IH]; intros a E; cbn [chain].
  - rewrite E; auto.
  - intros [H1 H2]. split; [rewrite E; auto|]. apply IH; auto. intros x X. apply E. cbn [In]. intuition.
Qed.
Lemma desc_nodup ks : desc ks -> NoDup ks.
Proof. induction 1 as [|k ks S IH F]; constructor; auto. intros I. rewrite Forall_forall in F. specialize (F _ I). lia. Qed.
Lemma desc_length ks lo hi : desc ks -> Forall (fun x => lo <= x < hi) ks -> Z.of_nat (length ks) <= Z.max 0 (hi - lo).
Proof.
  intros D F. assert (G : forall n ks, desc ks -> Forall (fun x => lo <= x < lo + Z.of_nat n) ks -> (length ks <= n)%nat).
  { clear. induction n as [|n IH]; intros ks D F.
    - destruct ks; [auto|]. inversion F; lia.
    - destruct ks as [|k ks]; cbn [length]; [lia|]. apply le_n_S. inversion D as [|? ? D' G]; subst. inversion F as [|? ? K F']; subst.
      apply IH; auto. rewrite Forall_forall in *. intros x X. specialize (G x X). specialize (F' x X). lia. }
  specialize (G (Z.to_nat (hi - lo)) ks D). assert (length ks <= Z.to_nat (hi - lo))%nat; [|lia].
  apply G. eapply Forall_impl; [|exact F]. cbv beta. intros x X. lia.
Qed.

Lemma last_cons {A} (us : list A) a b : last (b :: us) a = last us b.
Proof. revert a b. induction us as [|u us IH]; intros a b; [reflexivity|]. change (last (b :: u :: us) a) with (last (u :: us) a). now rewrite !IH. Qed.

Section Trie.
(* the size and the number of categories (the parameter of NewTinyHashTrie plus one) *)
Context (N K : Z).

Record shape (t : trie) : Prop := mkshape {
  s_header : t_header t = K + 1; s_span : t_span t = N - 2 * K; s_size : t_size t = N; s_cat : t_catcnt t = K;
  s_link : zlen (t_link t) = N; s_ch : zlen (t_ch t) = N; s_K : 2 <= K; s_N : 2 * K < N <= 255 }.

Definition cell (x : Z) : Prop := 0 <= x < N.
Definition node (t : trie) (x : Z) : Prop := cell x /\ 1 <= C t x <= K.
Definition head (t : trie) (h : Z) : Prop := cell h /\ C t h = K + 1.
Definition family (t : trie) (h : Z) (ks : list Z) : Prop :=
  ks <> [] /\ chain (B t) h ks h /\ desc ks /\ forall x, In x ks <-> node t x /\ x - C t x = h.

(* The invariant: a node lies behind the header of its family by its category; headers and parents point to
   each other; the siblings form a ring in descending order. *)
Record inv (t : trie) : Prop := mkinv {
  i_shape : shape t; i_free : t_frozen t = false; i_sib : zlen (t_sib t) = N;
  i_range : forall x, cell x -> 0 <= C t x <= K + 1;
  i_root : C t 0 = K + 1 /\ L t 0 = 0;
  i_top : forall c, 1 <= c <= K -> C t c = c;
  i_parent : forall x, node t x -> head t (x - C t x);
  i_small : forall x, node t x -> x - C t x <> 0 -> C t x < K;
  i_head : forall h, head t h -> h <> 0 -> K < h <= N - K /\ node t (L t h) /\ L t (L t h) = h;
  i_link : forall p, node t p -> L t p <> 0 -> head t (L t p) /\ L t (L t p) = p;
  i_fam : forall h, head t h -> h <> 0 -> exists ks, family t h ks }.

(* ---- access ---- *)
Lemma link_ok t x : shape t -> cell x -> link_at t x = Ok (L t x).
Proof. intros S X. unfold link_at. rewrite get_ok; [reflexivity|]. rewrite (s_link t S). exact X. Qed.
Lemma ch_ok t x : shape t -> cell x -> ch_at t x = Ok (C t x).
Proof. intros S X. unfold ch_at. rewrite get_ok; [reflexivity|]. rewrite (s_ch t S). exact X. Qed.
Lemma sib_ok t x : zlen (t_sib t) = N -> cell x -> sib_at t x = Ok (B t x).
Proof. intros S X. unfold sib_at. rewrite get_ok; [reflexivity|]. rewrite S. exact X. Qed.

Definition upd (f : Z -> Z) (i v : Z) : Z -> Z := fun j => if j =? i then v else f j.
(* a trie with other contents *)
Definition becomes (t t' : trie) (l b c : Z -> Z) : Prop :=
  (shape t -> shape t') /\ t_frozen t' = t_frozen t /\ zlen (t_sib t') = zlen (t_sib t) /\
  (forall x, L t' x = l x) /\ (forall x, B t' x = b x) /\ (forall x, C t' x = c x).

Lemma set_link_ok t i v : shape t -> cell i -> exists t', set_link t i v = Ok t' /\ becomes t t' (upd (L t) i v) (B t) (C t).
Proof.
  intros S I. unfold set_link. destruct (zset_Some (t_link t) i v) as [a E]; [rewrite (s_link t S); exact I|]. rewrite E. cbn [lift rbind].
  eexists. split; [reflexivity|]. unfold becomes, with_link, L, B, C, upd. cbn. split; [|split; [auto|split; [auto|split; [auto|split; auto]]]].
  - intros [? ? ? ? HL HC ? ?]. constructor; cbn; auto; try lia. now rewrite (zset_len _ _ _ _ E).
  - intros x. now rewrite (get_set _ _ _ _ _ E).
Qed.
Lemma set_sib_ok t i v : zlen (t_sib t) = N -> cell i -> exists t', set_sib t i v = Ok t' /\ becomes t t' (L t) (upd (B t) i v) (C t).
Proof.
  intros S I. unfold set_sib. destruct (zset_Some (t_sib t) i v) as [a E]; [rewrite S; exact I|]. rewrite E. cbn [lift rbind].
  eexists. split; [reflexivity|]. unfold becomes, with_sib, L, B, C, upd. cbn. split; [|split; [auto|split; [|split; [auto|split; auto]]]].
  - intros [? ? ? ? HL HC ? ?]. constructor; cbn; auto; lia.
  - now rewrite (zset_len _ _ _ _ E).
  - intros x. now rewrite (get_set _ _ _ _ _ E).
Qed.
Lemma set_ch_ok t i v : shape t -> cell i -> exists t', set_ch t i v = Ok t' /\ becomes t t' (L t) (B t) (upd (C t) i v).
Proof.
  intros S I. unfold set_ch. destruct (zset_Some (t_ch t) i v) as [a E]; [rewrite (s_ch t S); exact I|]. rewrite E. cbn [lift rbind].
  eexists. split; [reflexivity|]. unfold becomes, with_ch, L, B, C, upd. cbn. split; [|split; [auto|split; [auto|split; [auto|split; auto]]]].
  - intros [? ? ? ? HL HC ? ?]. constructor; cbn; auto; try lia. now rewrite (zset_len _ _ _ _ E).
  - intros x. now rewrite (get_set _ _ _ _ _ E).
Qed.

(* ---- the words ---- *)
Definition letter (c : Z) : Prop := 1 <= c < K.
(* the word v leads to the node x *)
Inductive At (t : trie) : list Z -> Z -> Prop :=
| at_top c : letter c -> At t [c] c
| at_step v p c : At t v p -> letter c -> L t p <> 0 -> C t (L t p + c) = c -> At t (v ++ [c]) (L t p + c).

Lemma get_nonzero l i : get l i <> 0 -> 0 <= i < zlen l.
Proof. intros H. apply zget_Some_iff. unfold get in H. destruct (zget l i); [eauto|congruence]. Qed.
Lemma C_cell t x : shape t -> C t x <> 0 -> cell x.
Proof. intros S H. apply get_nonzero in H. rewrite (s_ch t S) in H. exact H. Qed.

Lemma At_node t v x : inv t -> At t v x -> node t x.
Proof.
  intros I A. pose proof (s_K t (i_shape t I)) as HK. pose proof (s_N t (i_shape t I)) as HN. unfold node, cell, letter in *. destruct A as [c R|v p c A R NZ E]; unfold letter in R.
  - rewrite (i_top t I) by lia. lia.
  - rewrite E. split; [|lia]. apply (C_cell t); [apply (i_shape t I)|]. rewrite E. lia.
Qed.
Lemma At_word t v x : At t v x -> v <> [] /\ Forall letter v.
Proof.
  induction 1 as [c R|v p c A [IH F] R NZ E].
  - split; [discriminate|]. auto.
  - split; [destruct v; discriminate|]. apply Forall_app. auto.
Qed.
Lemma At_inv t v c x : At t (v ++ [c]) x -> (v = [] /\ x = c) \/ (exists p, At t v p /\ L t p <> 0 /\ C t (L t p + c) = c /\ x = L t p + c).
Proof.
  intros A. remember (v ++ [c]) as w eqn:W. destruct A as [c' R|v' p c' A R NZ E].
  - change [c'] with ([] ++ [c']) in W. apply app_inj_tail in W. left. intuition congruence.
  - apply app_inj_tail in W. destruct W as [<- <-]. right. eauto.
Qed.
Lemma At_fun t v x y : At t v x -> At t v y -> x = y.
Proof.
  intros A. revert y. induction A as [c R|v p c A IH R NZ E]; intros y Y.
  - change [c] with ([] ++ [c]) in Y. apply At_inv in Y. destruct Y as [[_ ->]|(p & P & _)]; auto. apply At_word in P. now destruct P.
  - apply At_inv in Y. destruct Y as [[-> _]|(p' & P & _ & _ & ->)]; [apply At_word in A; now destruct A|]. now rewrite (IH _ P).
Qed.
(* the category, the header and the parent of a node are determined by it *)
Lemma At_last t v c x : inv t -> At t (v ++ [c]) x -> C t x = c /\ (v = [] -> x = c) /\ (v <> [] -> head t (x - c) /\ x - c <> 0 /\ At t v (L t (x - c)) /\ L t (L t (x - c)) = x - c).
Proof.
  intros I A. pose proof (At_word _ _ _ A) as [_ F]. apply Forall_app in F. destruct F as [_ F]. inversion F as [|? ? R _]; subst. unfold letter in R.
  apply At_inv in A. destruct A as [[-> ->]|(p & P & NZ & E & ->)].
  - split; [apply (i_top t I); lia|]. split; auto. now intros [].
  - split; [exact E|]. split; [intros ->; apply At_word in P; now destruct P|]. intros _. replace (L t p + c - c) with (L t p) by lia.
    destruct (i_link t I p (At_node _ _ _ I P) NZ) as [H1 H2]. rewrite !H2. auto.
Qed.
Lemma last_app {A} (v : list A) : v <> [] -> exists w c, v = w ++ [c].
Proof. intros E. destruct (exists_last E) as (w & c & ->). eauto. Qed.
Lemma At_inj t v v' x : inv t -> At t v x -> At t v' x -> v = v'.
Proof.
  intros I. revert v' x. induction v as [|c v IH] using rev_ind; intros v' x A A'; [apply At_word in A; now destruct A|].
  destruct (last_app v') as (w & d & ->); [now apply At_word in A'|].
  destruct (At_last _ _ _ _ I A) as (E1 & T1 & U1), (At_last _ _ _ _ I A') as (E2 & T2 & U2). rewrite E1 in E2. subst d. apply app_inv_tail_iff.
  destruct v as [|a v]; [destruct w as [|b w]; auto|].
  - destruct U2 as (_ & NZ & _); [discriminate|]. specialize (T1 eq_refl). lia.
  - destruct U1 as (_ & NZ & P & _); [discriminate|]. destruct w as [|b w].
    + specialize (T2 eq_refl). lia.
    + destruct U2 as (_ & _ & P' & _); [discriminate|]. exact (IH _ _ P P').
Qed.
(* no node is a child of itself *)
Lemma At_irrefl t u p : inv t -> At t u p -> L t p <> 0 -> p - C t p <> L t p.
Proof.
  intros I A NZ E. destruct (last_app u) as (w & c & ->); [now apply At_word in A|]. destruct (At_last _ _ _ _ I A) as (Ec & T & U).
  rewrite Ec in E. assert (letter c) as R. { destruct (At_word _ _ _ A) as [_ F]. apply Forall_app in F. destruct F as [_ F]. now inversion F. }
  assert (A2 : At t ((w ++ [c]) ++ [c]) (L t p + c)). { constructor; auto. replace (L t p + c) with p by lia. exact Ec. }
  replace (L t p + c) with p in A2 by lia. pose proof (At_inj _ _ _ _ I A A2) as X. apply (f_equal (@length Z)) in X. rewrite !app_length in X. cbn in X. lia.
Qed.

(* ---- searching ---- *)
Lemma nominal_ok t n : shape t -> exists h, nominal t n = Ok h /\ K < h <= N - K.
Proof.
  intros S. destruct S as [Hh Hs Hz Hc _ _ HK HN]. unfold nominal. rewrite Hs, Hz, Hc. set (x := u8 (u8 n * t_alpha t) mod (N - 2 * K)).
  assert (0 <= x < N - 2 * K) as X by (apply Z.mod_pos_bound; lia). rewrite u8_id by lia.
  replace ((x + K + 1 <=? K) || (N + K <? x + K + 1)) with false by lia. exists (x + K + 1). split; [reflexivity|lia].
Qed.
Lemma trial_ok t c : shape t -> letter c -> forall trys h, K < h <= N - K ->
  trial_loop t c h trys = Panic \/ exists h', trial_loop t c h trys = Ok h' /\ K < h' <= N - K /\ C t h' = 0 /\ C t (h' + c) = 0.
Proof.
  intros S R. pose proof (s_K t S) as HK. pose proof (s_N t S) as HN. unfold letter in R. induction trys as [|k IH]; intros h H; cbn [trial_loop]; [auto|].
  rewrite (s_size t S), (s_cat t S). set (h2 := if h =? u8 (N - K) then u8 (K + 1) else u8 (h + 1)).
  assert (H2 : K < h2 <= N - K). { unfold h2. rewrite !u8_id by lia. destruct (Z.eqb_spec h (N - K)); lia. }
  rewrite (u8_id (h2 + c)) by lia. rewrite ch_ok by (auto; unfold cell; lia). cbn [rbind]. destruct (Z.eqb_spec (C t h2) 0); [|auto].
  rewrite ch_ok by (auto; unfold cell; lia). cbn [rbind]. destruct (Z.eqb_spec (C t (h2 + c)) 0); [|auto]. right. exists h2. auto.
Qed.
Lemma family_loop_ok t lp h : shape t -> zlen (t_sib t) = N -> forall fuel ks r, chain (B t) r ks lp -> ~ In lp ks ->
  (forall x, x = r \/ In x ks -> cell x /\ cell (x + (h - lp))) -> (length ks < fuel)%nat ->
  exists r', family_loop t lp r (u8 (h - lp)) fuel = Ok r' /\ cell (r' + (h - lp)) /\
    (C t (r' + (h - lp)) = 0 -> forall x, x = r \/ In x ks -> C t (x + (h - lp)) = 0).
Proof.
  intros S SB. pose proof (s_N t S) as HN. induction fuel as [|fuel IH]; intros ks r CH NI R F; [lia|]. cbn [family_loop].
  destruct (R r) as [R1 R2]; [auto|]. unfold cell in R1, R2. rewrite u8_delta by lia. rewrite ch_ok by (auto; unfold cell; lia). cbn [rbind].
  destruct (Z.eqb_spec (C t (r + (h - lp))) 0) as [Z0|NZ].
  - rewrite sib_ok by auto. cbn [rbind]. destruct ks as [|k ks]; cbn [chain] in CH.
    + rewrite CH, Z.eqb_refl. exists r. split; [reflexivity|]. split; [exact R2|]. intros _ x [->|[]]. exact Z0.
    + destruct CH as [E CH]. rewrite E. destruct (Z.eqb_spec k lp) as [->|NE]; [exfalso; apply NI; cbn; auto|].
      destruct (IH ks k CH) as (r' & E' & X & A).
      * intros I. apply NI. cbn. auto.
      * intros x [->|I]; apply R; cbn; auto.
      * cbn in F. lia.
      * exists r'. split; [exact E'|]. split; [exact X|]. intros Z1 x [->|[<-|I]]; auto.
  - exists r. split; [reflexivity|]. split; [exact R2|]. intros Z1. congruence.
Qed.
Lemma home_ok t lp c ks : inv t -> letter c -> head t lp -> lp <> 0 -> family t lp ks -> forall trys h, K < h <= N - K ->
  home_loop t lp c h trys = Panic \/ exists h', home_loop t lp c h trys = Ok h' /\ K < h' <= N - K /\ C t (h' + c) = 0 /\
    (forall x, x = lp \/ In x ks -> C t (x + (h' - lp)) = 0).
Proof.
  intros I R HL NZ (NE & CH & D & FA). pose proof (i_shape t I) as S. pose proof (s_K t S) as HK. pose proof (s_N t S) as HN. unfold letter in R.
  destruct (i_head t I lp HL NZ) as (RL & _).
  assert (KS : forall x, In x ks -> lp < x < lp + K). { intros x X. apply FA in X. destruct X as [[X1 X2] X3]. pose proof (i_small t I x (conj X1 X2)). lia. }
  induction trys as [|k IH]; intros h H; cbn [home_loop]; [auto|].
  rewrite (s_size t S), (s_cat t S). set (h2 := if h <? u8 (N - K) then u8 (h + 1) else u8 (K + 1)).
  assert (H2 : K < h2 <= N - K). { unfold h2. rewrite !u8_id by lia. destruct (Z.ltb_spec h (N - K)); lia. }
  cbv zeta. rewrite (u8_id (h2 + c)) by lia. rewrite ch_ok by (auto; unfold cell; lia). cbn [rbind]. destruct (Z.eqb_spec (C t (h2 + c)) 0) as [Z0|]; [|cbn [negb]; auto]. cbn [negb].
  destruct (family_loop_ok t lp h2 S (i_sib t I) 256 ks lp CH) as (r' & E & X & A).
  - intros Y. apply KS in Y. lia.
  - intros x [->|X]; unfold cell; [lia|]. apply KS in X. lia.
  - assert (G : Z.of_nat (length ks) <= Z.max 0 (lp + K - (lp + 1))). { apply desc_length; [exact D|]. apply Forall_forall. intros x X. apply KS in X. lia. } lia.
  - rewrite E. cbn [rbind]. unfold cell in X. rewrite u8_delta by lia. rewrite ch_ok by auto. cbn [rbind].
    destruct (Z.eqb_spec (C t (r' + (h2 - lp))) 0) as [Z1|]; [|auto]. right. exists h2. auto.
Qed.
Lemma sib_loop_ok t q : zlen (t_sib t) = N -> forall fuel ks a z, chain (B t) a ks z -> z < q -> cell a -> (forall x, In x ks -> cell x) -> desc ks -> ~ In q ks ->
  (length ks < fuel)%nat -> exists us vs, ks = us ++ vs /\ sib_loop t a q fuel = Ok (last us a) /\ (forall x, In x us -> q < x) /\ (forall x, In x vs -> x < q).
Proof.
  intros SB. induction fuel as [|fuel IH]; intros ks a z CH ZQ CA CK D NI F; [lia|]. cbn [sib_loop]. rewrite sib_ok by auto. cbn [rbind].
  destruct ks as [|k ks]; cbn [chain] in CH.
  - rewrite CH. replace (q <? z) with false by lia. exists [], []. cbn. intuition.
  - destruct CH as [E CH]. rewrite E. destruct (Z.ltb_spec q k) as [LT|GE].
    + inversion D as [|? ? D' G]; subst k. destruct (IH ks (B t a) z CH ZQ) as (us & vs & E1 & E2 & U & V); auto.
      * apply CK. cbn. auto.
      * intros x X. apply CK. cbn. auto.
      * intros X. apply NI. cbn. auto.
      * cbn in F. lia.
      * exists (B t a :: us), vs. split; [cbn; now rewrite E1|]. split.
        { rewrite E2. f_equal. symmetry. apply last_cons. }
        split; [|exact V]. intros x [<-|X]; auto.
    + exists [], (k :: ks). split; [reflexivity|]. split; [reflexivity|]. split; [intros x []|]. inversion D as [|? ? D' G]; subst.
      assert (B t a <> q) by (intros EQ; apply NI; cbn; auto). intros x [<-|X]; [lia|]. rewrite Forall_forall in G. specialize (G x X). lia.
Qed.

(* ---- a new node ---- *)
(* The changes made for a new node: the cell h + c gets the category c; if h is not yet the header of p, it becomes it. *)
Record added (t t' : trie) (p h c : Z) : Prop := mkadded {
  a_letter : letter c; a_node : node t p; a_h : K < h <= N - K; a_fresh : C t (h + c) = 0;
  a_old : (L t p = 0 /\ C t h = 0) \/ L t p = h;
  a_C : forall x, C t' x = if x =? h + c then c else if x =? h then K + 1 else C t x;
  a_L : forall x, L t' x = if x =? h + c then 0 else if x =? h then p else if x =? p then h else L t x }.

Lemma added_At t t' u p h c : inv t -> At t u p -> added t t' p h c -> forall v y, At t' v y <-> At t v y \/ (v = u ++ [c] /\ y = h + c).
Proof.
  intros I U [R P HH FR OLD EC EL]. pose proof (i_shape t I) as S. pose proof (s_K t S) as HK. pose proof (s_N t S) as HN. unfold letter in R.
  assert (KEEP : forall x, C t x <> 0 -> C t' x = C t x).
  { intros x X. rewrite EC. destruct (Z.eqb_spec x (h + c)) as [->|]; [congruence|]. destruct (Z.eqb_spec x h) as [->|]; auto.
    destruct OLD as [[_ E]|E]; [congruence|]. destruct (i_link t I p P) as [[_ G] _]; [lia|]. rewrite <- E. lia. }
  assert (LP : L t' p = h). { rewrite EL. destruct P as [_ P]. destruct (Z.eqb_spec p (h + c)) as [->|]; [lia|]. destruct (Z.eqb_spec p h) as [->|].
    - destruct OLD as [[_ E]|E]; [lia|]. destruct (i_link t I h) as [[_ G] _]; [split; [unfold cell; lia|exact P]|lia|]. rewrite E in G. lia.
    - now rewrite Z.eqb_refl. }
  assert (LX : forall x, node t x -> x <> p -> L t' x = L t x).
  { intros x X NE. rewrite EL. destruct X as [XC X]. destruct (Z.eqb_spec x (h + c)) as [->|]; [lia|]. destruct (Z.eqb_spec x h) as [->|].
    - destruct OLD as [[_ E]|E]; [lia|]. destruct (i_link t I p P) as [[_ G] _]; [lia|]. rewrite E in G. lia.
    - destruct (Z.eqb_spec x p); [congruence|auto]. }
  assert (LQ : L t' (h + c) = 0) by (rewrite EL, Z.eqb_refl; reflexivity).
  intros v y. split.
  - induction 1 as [d D|v p' d A IH D NZ E]; [left; now constructor|]. unfold letter in D. destruct IH as [A0|[-> ->]]; [|congruence].
    pose proof (At_node _ _ _ I A0) as P'. destruct (Z.eq_dec p' p) as [->|NE].
    + assert (v = u) by exact (At_inj _ _ _ _ I A0 U). subst v. rewrite LP in *. destruct (Z.eq_dec d c) as [->|ND]; [right; auto|]. left.
      rewrite EC in E. replace (h + d =? h + c) with false in E by lia. replace (h + d =? h) with false in E by lia.
      destruct OLD as [[_ H0]|E0].
      * exfalso. destruct (i_parent t I (h + d)) as [_ G]; [split; [apply (C_cell t _ S); lia|lia]|]. rewrite E in G. replace (h + d - d) with h in G by lia. lia.
      * rewrite <- E0. constructor; auto; rewrite E0; [lia|auto].
    + rewrite (LX _ P' NE) in *. left. constructor; auto. destruct (i_link t I p' P' NZ) as [[GC G] GB]. rewrite EC in E.
      destruct (Z.eqb_spec (L t p' + d) (h + c)) as [EQ|]; [|destruct (Z.eqb_spec (L t p' + d) h) as [EQ|]; [lia|auto]].
      exfalso. assert (L t p' = h) as EH by lia. destruct OLD as [[_ H0]|E0]; [rewrite EH in G; lia|].
      destruct (i_link t I p P) as [_ GB']; [lia|]. congruence.
  - assert (FWD : forall v y, At t v y -> At t' v y).
    { clear v y. intros v y A. induction A as [d D|v p' d A IH D NZ E]; [now constructor|]. pose proof (At_node _ _ _ I A) as P'. unfold letter in D.
      assert (LL : L t' p' = L t p'). { destruct (Z.eq_dec p' p) as [->|NE]; [|auto]. destruct OLD as [[E0 _]|E0]; congruence. }
      rewrite <- LL. constructor; auto; rewrite LL; auto. rewrite KEEP; lia. }
    intros [A|[-> ->]]; [auto|]. rewrite <- LP. constructor; auto; rewrite LP; [lia|]. now rewrite EC, Z.eqb_refl.
Qed.
End Trie.
