(* NestedL2.v -- rule L2 of UAX#9 for paragraphs with isolates, and comparison with the order of NestedRunsSpec.v. *)
From Coq Require Import List ZArith Lia Bool Permutation.
From Verif Require Import Base Scrap Reorder ReorderSpec ReorderProofs NestedRunsSpec NestedRuns.
Import ListNotations.
Open Scope Z_scope.

(* ---- specification: pieces of text with levels ---- *)
(* from, to, level, direction *)
Record piece := mkp { p_l : Z; p_r : Z; p_lev : Z; p_dir : bool }.
(* rules I1 and I2 *)
Definition uax_lev (e : Z) (s : scrap) : Z :=
  if Z.even e then (if number s then e + 2 else if clz s =? cR then e + 1 else e)
  else if (clz s =? cL) || number s then e + 1 else e.
Definition text (e : Z) (s : scrap) (l r : Z) : piece := mkp l r (uax_lev e s) (Z.odd (uax_lev e s)).
(* An isolate: initiator and PDI have the level of the text around (X5a, X6a), its contents the next one.
   For the direction, which is of no consequence, the delimiters count as contents. *)
Definition inside (e : Z) (x : scrap) : piece :=
  if isisolate x then mkp (sl x) (sr x) e (Z.odd (e + 1)) else text (e + 1) x (sl x) (sr x).
Fixpoint kid_pieces (e : Z) (s : scrap) (a : Z) (ks : list (list scrap)) (b : Z) : list piece :=
  match ks with
  | [] => [text e s a b]
  | ch :: t =>
      match ch with
      | [] => kid_pieces e s a t b
      | f :: _ => text e s a (sl f) :: map (inside e) ch ++ kid_pieces e s (sr (last ch f)) t b
      end
  end.
Definition pieces (e : Z) (s : scrap) : list piece := kid_pieces e s (sl s) (kids s) (sr s).
(* L2: from the level n down to 1, reverse all blocks of this level or higher *)
Fixpoint L2 (n : nat) (ps : list piece) : list piece :=
  match n with
  | O => ps
  | S k => L2 k (rev_blocks (fun p => Z.of_nat (S k) <=? p_lev p) [] ps)
  end.
Definition show (p : piece) : list (Z * bool) := toward (p_dir p) (p_l p) (p_r p).
Definition base_level (emb : bool) : Z := if emb then 1 else 0.
(* the whole paragraph; read from the right if it is right-to-left *)
Definition visual (emb : bool) (ss : list scrap) : list piece :=
  let r := L2 4 (flat_map (pieces (base_level emb)) ss) in if emb then rev r else r.

(* ---- the paragraphs: isolates of the other direction, in text of the paragraph's direction, not nested ---- *)
Definition directed (s : scrap) : Prop := In (clz s) [cL; cR; cEN; cAN].
Definition opposite (emb : bool) (ch : list scrap) : Prop := exists f mid e, ch = f :: mid ++ [e] /\
  clz f = (if emb then cLRI else cRLI) /\ clz e = cPDI /\ kids f = [] /\ kids e = [] /\
  Forall (fun x => directed x /\ kids x = []) mid /\ (emb = R2L -> numbers_apart mid).
Definition shallow (emb : bool) (s : scrap) : Prop :=
  (directed s \/ isisolate s = true /\ kids s = [] /\ sl s = sr s) /\
  (kids s <> [] -> clz s = if emb then cR else cL) /\ Forall (opposite emb) (kids s).
(* text before every isolate, none empty *)
Fixpoint spaced (a : Z) (ks : list (list scrap)) : Prop :=
  match ks with
  | [] => True
  | ch :: t => match ch with [] => spaced a t | f :: _ => a < sl f /\ sl f < sr f /\ spaced (sr (last ch f)) t end
  end.

(* ---- blocks ---- *)
Lemma rev_blocks_delim {A} (f : A -> bool) x B : f x = false -> forall l acc, rev_blocks f acc (l ++ x :: B) = rev_blocks f acc l ++ x :: rev_blocks f [] B.
Proof.
  intros E. induction l as [|y l IH]; intros acc; cbn [app rev_blocks].
  - now rewrite E.
  - destruct (f y); [apply IH|]. rewrite IH, <- app_assoc. reflexivity.
Qed.
Lemma rev_blocks_map2 {A B} (g : A -> B) f l : forall acc, rev_blocks f (map g acc) (map g l) = map g (rev_blocks (fun x => f (g x)) acc l).
Proof.
  induction l as [|x l IH]; intros acc; cbn [map rev_blocks]; [reflexivity|]. destruct (f (g x)).
  - exact (IH (x :: acc)).
  - rewrite map_app. cbn [map]. f_equal. f_equal. exact (IH []).
Qed.
Lemma rev_blocks_none {A} (f : A -> bool) l : (forall x, In x l -> f x = false) -> rev_blocks f [] l = l.
Proof. induction l as [|x l IH]; intros H; [reflexivity|]. cbn [rev_blocks]. rewrite (H x) by (left; auto). cbn [app]. f_equal. apply IH. intros y Hy. apply H. now right. Qed.
Lemma rev_blocks_in {A} (f : A -> bool) l x : In x (rev_blocks f [] l) <-> In x l.
Proof. split; intros H; (eapply Permutation_in; [|exact H]); [|symmetry]; apply (rev_blocks_perm f l []). Qed.
Lemma apart_app : forall a b, numbers_apart (a ++ b) -> numbers_apart a /\ numbers_apart b.
Proof.
  induction a as [|x a IH]; intros b N; [split; [exact Logic.I|exact N]|]. cbn [app] in N.
  assert (NT : numbers_apart (a ++ b)) by (destruct (a ++ b); [exact Logic.I|exact (proj2 N)]).
  destruct (IH _ NT) as [N1 N2]. split; auto. destruct a as [|y a]; [exact Logic.I|]. cbn [app] in N. split; [exact (proj1 N)|exact N1].
Qed.

Section Emb.
Context (emb : bool).
Notation e := (base_level emb).
Definition rb (k : Z) (ps : list piece) : list piece := rev_blocks (fun p => e + k <=? p_lev p) [] ps.
Definition G (ps : list piece) : list piece := rb 1 (rb 2 (rb 3 ps)).

Lemma visual_G ss : Forall (fun p => e <= p_lev p <= e + 3) (flat_map (pieces e) ss) -> visual emb ss = G (flat_map (pieces e) ss).
Proof.
  unfold visual, G, rb. generalize (flat_map (pieces e) ss) as ps. intros ps F. rewrite Forall_forall in F.
  unfold base_level in *. destruct emb; cbn [L2]; change (Z.of_nat 4) with 4; change (Z.of_nat 3) with 3; change (Z.of_nat 2) with 2; change (Z.of_nat 1) with 1.
  - change (1 + 3) with 4 in *. change (1 + 2) with 3. change (1 + 1) with 2. rewrite (rev_blocks_all (fun p => 1 <=? p_lev p)).
    + now rewrite app_nil_r, rev_involutive.
    + intros x H. rewrite !rev_blocks_in in H. specialize (F x H). apply Z.leb_le. lia.
  - rewrite (rev_blocks_none (fun p => 4 <=? p_lev p)); [reflexivity|]. intros x H. specialize (F x H). apply Z.leb_gt. lia.
Qed.

Lemma rb_delim k x A B : 1 <= k -> p_lev x = e -> rb k (A ++ x :: B) = rb k A ++ x :: rb k B.
Proof. intros K E. apply rev_blocks_delim. apply Z.leb_gt. lia. Qed.
Lemma G_delim x A B : p_lev x = e -> G (A ++ x :: B) = G A ++ x :: G B.
Proof. intros E. unfold G. now rewrite !rb_delim by (auto; lia). Qed.
Lemma G_nil : G [] = [].  Proof. reflexivity. Qed.
Lemma G_first x B : p_lev x = e -> G (x :: B) = x :: G B.
Proof. intros E. exact (G_delim x [] B E). Qed.
Lemma G_last x A : p_lev x = e -> G (A ++ [x]) = G A ++ [x].
Proof. intros E. now rewrite G_delim, G_nil. Qed.

(* levels *)
Lemma number_cases s : number s = (clz s =? cEN) || (clz s =? cAN).  Proof. reflexivity. Qed.
Ltac cases4 H := unfold directed in H; cbn [In] in H; destruct H as [H|[H|[H|[H|[]]]]].
Lemma lev_top s : uax_lev e s = e + (if emb then (if opp emb s then 1 else 0) else if number s then 2 else if opp emb s then 1 else 0).
Proof.
  unfold uax_lev, opp, level, number, base_level. destruct emb; cbn [Z.even].
  - destruct (clz s =? cEN), (clz s =? cAN), (clz s =? cL), (clz s =? cR); reflexivity.
  - destruct (clz s =? cEN), (clz s =? cAN), (clz s =? cL), (clz s =? cR); reflexivity.
Qed.
Lemma lev_in s : directed s -> uax_lev (e + 1) s = e + (if emb then (if number s then 3 else if opp L2R s then 2 else 1) else if opp R2L s then 2 else 1).
Proof.
  intros P. unfold base_level, opp, level, number. destruct emb; cases4 P; unfold uax_lev, number; rewrite <- P; reflexivity.
Qed.

(* a block of the top level *)
Definition single (s : scrap) : piece := text e s (sl s) (sr s).
Lemma G_block B : Forall (fun s => opp emb s = true) B -> (emb = L2R -> numbers_apart B) -> G (map single B) = map single (rev B).
Proof.
  intros O N. rewrite Forall_forall in O. unfold G, rb.
  assert (LV : forall s, In s B -> p_lev (single s) = e + (if emb then 1 else if number s then 2 else 1)).
  { intros s H. unfold single, text. cbn [p_lev]. rewrite lev_top, (O s H). reflexivity. }
  assert (R3 : rev_blocks (fun p => e + 3 <=? p_lev p) [] (map single B) = map single B).
  { apply rev_blocks_none. intros p H. apply in_map_iff in H. destruct H as (s & <- & H). rewrite (LV s H). apply Z.leb_gt. destruct emb; [lia|]. destruct (number s); lia. }
  rewrite R3.
  assert (R2 : rev_blocks (fun p => e + 2 <=? p_lev p) [] (map single B) = map single B).
  { rewrite (rev_blocks_map2 single _ B []). f_equal. destruct emb eqn:EM.
    - apply rev_blocks_none. intros s H. rewrite (LV s H). apply Z.leb_gt. lia.
    - rewrite <- (rev_blocks_apart B) at 2 by (apply N; reflexivity). apply rev_blocks_ext. intros s H. rewrite (LV s H). destruct (number s); [apply Z.leb_le|apply Z.leb_gt]; lia. }
  rewrite R2, (rev_blocks_map2 single _ B []). f_equal. rewrite rev_blocks_all; [now rewrite app_nil_r|]. intros s H. rewrite (LV s H). apply Z.leb_le. destruct emb; [lia|]. destruct (number s); lia.
Qed.
(* the contents of an isolate *)
Lemma directed_iso x : directed x -> isisolate x = false.
Proof. intros P. unfold isisolate. cases4 P; rewrite <- P; reflexivity. Qed.
Lemma G_content mid : Forall directed mid -> (emb = R2L -> numbers_apart mid) -> G (map (inside e) mid) = map (inside e) (rev (rev_blocks (opp (negb emb)) [] mid)).
Proof.
  intros P N. rewrite Forall_forall in P. unfold G, rb.
  assert (LV : forall s, In s mid -> p_lev (inside e s) = e + (if emb then (if number s then 3 else if opp L2R s then 2 else 1) else if opp R2L s then 2 else 1)).
  { intros s H. unfold inside. rewrite directed_iso by auto. unfold text. cbn [p_lev]. apply lev_in; auto. }
  assert (R3 : rev_blocks (fun p => e + 3 <=? p_lev p) [] (map (inside e) mid) = map (inside e) mid).
  { rewrite (rev_blocks_map2 (inside e) _ mid []). f_equal. destruct emb eqn:EM.
    - rewrite <- (rev_blocks_apart mid) at 2 by (apply N; reflexivity). apply rev_blocks_ext. intros s H. rewrite (LV s H). destruct (number s); [apply Z.leb_le|apply Z.leb_gt; destruct (opp L2R s)]; lia.
    - apply rev_blocks_none. intros s H. rewrite (LV s H). apply Z.leb_gt. destruct (opp R2L s); lia. }
  rewrite R3, (rev_blocks_map2 (inside e) _ mid []).
  assert (R2 : rev_blocks (fun x => e + 2 <=? p_lev (inside e x)) [] mid = rev_blocks (opp (negb emb)) [] mid).
  { apply rev_blocks_ext. intros s H. rewrite (LV s H). destruct emb; cbn [negb].
    - change false with L2R. destruct (number s) eqn:NU; [|destruct (opp L2R s); [apply Z.leb_le|apply Z.leb_gt]; lia].
      replace (opp L2R s) with true; [apply Z.leb_le; lia|]. unfold opp, level. unfold number in NU. rewrite NU. reflexivity.
    - change true with R2L. destruct (opp R2L s); [apply Z.leb_le|apply Z.leb_gt]; lia. }
  rewrite R2. rewrite (rev_blocks_map2 (inside e) _ _ []). f_equal. rewrite rev_blocks_all; [now rewrite app_nil_r|].
  intros s H. rewrite rev_blocks_in in H. rewrite (LV s H). apply Z.leb_le. destruct emb; [destruct (number s); [lia|]; destruct (opp L2R s)|destruct (opp R2L s)]; lia.
Qed.

(* ---- views ---- *)
Lemma arrange_nokids d s : kids s = [] -> arrange d s = s.
Proof. destruct s as [c l r x ks]. cbn [kids]. intros ->. reflexivity. Qed.
Lemma view_nokids d s : kids s = [] -> view d s = toward (dirFromClass s d) (sl s) (sr s).
Proof. destruct s as [c l r x ks]. cbn [kids]. intros ->. rewrite view_eq. reflexivity. Qed.
Lemma show_single o s : directed s -> kids s = [] -> show (single s) = view o s.
Proof.
  intros P K. rewrite view_nokids by auto. unfold show, single, text. cbn [p_dir p_l p_r]. f_equal. rewrite lev_top.
  unfold base_level, opp, level, number, dirFromClass. destruct emb; cases4 P; rewrite <- P; reflexivity.
Qed.
Lemma show_inside s : directed s -> kids s = [] -> forall o, show (inside e s) = view o s.
Proof.
  intros P K o. rewrite view_nokids by auto. unfold inside. rewrite directed_iso by auto. unfold show, text. cbn [p_dir p_l p_r]. f_equal. rewrite lev_in by auto.
  unfold base_level, opp, level, number, dirFromClass. destruct emb; cases4 P; rewrite <- P; reflexivity.
Qed.
Lemma show_delims f d : isisolate f = true -> kids f = [] -> dirFromClass f d = negb emb -> show (inside e f) = view d f.
Proof.
  intros I K D. rewrite view_nokids, D by auto. unfold inside. rewrite I. unfold show. cbn [p_dir p_l p_r]. f_equal. unfold base_level. destruct emb; reflexivity.
Qed.
Lemma flat_map_map {A B C} (g : A -> B) (f : B -> list C) l : flat_map f (map g l) = flat_map (fun x => f (g x)) l.
Proof. induction l as [|x l IH]; [reflexivity|]. cbn [map flat_map]. now rewrite IH. Qed.
Lemma flat_map_ext_in {A B} (f g : A -> list B) l : (forall x, In x l -> f x = g x) -> flat_map f l = flat_map g l.
Proof. induction l as [|x l IH]; intros H; [reflexivity|]. cbn [flat_map]. rewrite (H x) by (left; auto). f_equal. apply IH. intros y Hy. apply H. now right. Qed.
Lemma map_nokids d l : Forall (fun x => kids x = []) l -> map (arrange d) l = l.
Proof. induction 1 as [|x l K _ IH]; [reflexivity|]. cbn [map]. now rewrite IH, arrange_nokids. Qed.

Definition arranged_kid (ch : list scrap) : list scrap := let i := inner (dir_of ch) ch in if Bool.eqb (dir_of ch) emb then i else turn i.
Lemma kid_arranged ch : opposite emb ch -> exists f mid p, ch = f :: mid ++ [p] /\ clz f = (if emb then cLRI else cRLI) /\ clz p = cPDI /\ kids f = [] /\ kids p = [] /\
  Forall (fun x => directed x /\ kids x = []) mid /\ arranged_kid ch = f :: rev (rev_blocks (opp (negb emb)) [] mid) ++ [p] /\
  G (map (inside e) ch) = map (inside e) (arranged_kid ch).
Proof.
  intros (f & mid & p & -> & CF & CP & KF & KP & M & N). exists f, mid, p.
  assert (IF : isisolate f = true) by (unfold isisolate; rewrite CF; destruct emb; reflexivity).
  assert (IP : isisolate p = true) by (now apply pdi_iso).
  assert (D : dir_of (f :: mid ++ [p]) = negb emb) by (cbn [dir_of]; rewrite CF; destruct emb; reflexivity).
  assert (E : arranged_kid (f :: mid ++ [p]) = f :: rev (rev_blocks (opp (negb emb)) [] mid) ++ [p]).
  { unfold arranged_kid. rewrite D. replace (Bool.eqb (negb emb) emb) with false by (destruct emb; reflexivity). rewrite closed_shape by auto.
    rewrite turn_closed, !arrange_nokids by auto. f_equal. f_equal. f_equal. unfold inner. rewrite map_nokids; [reflexivity|]. eapply Forall_impl; [|exact M]. intros x Hx; exact (proj2 Hx). }
  repeat match goal with |- _ /\ _ => split end; auto. rewrite E. cbn [map]. rewrite !map_app. cbn [map].
  rewrite G_first by (unfold inside; rewrite IF; reflexivity). rewrite G_last by (unfold inside; rewrite IP; reflexivity).
  rewrite G_content; auto. eapply Forall_impl; [|exact M]. intros x Hx; exact (proj1 Hx).
Qed.

Lemma kids_views o s : clz s = (if emb then cR else cL) -> forall ks a b, Forall (opposite emb) ks ->
  flat_map show (G (kid_pieces e s a ks b)) = kid_views (dirFromClass s o) b a (map arranged_kid ks) /\
  (forall rest, G (kid_pieces e s a ks b ++ rest) = G (kid_pieces e s a ks b) ++ G rest) /\
  (forall before, G (before ++ kid_pieces e s a ks b) = G before ++ G (kid_pieces e s a ks b)).
Proof.
  intros C. assert (LE : forall x y, p_lev (text e s x y) = e).
  { intros x y. unfold text. cbn [p_lev]. rewrite lev_top. unfold opp, level, number. rewrite C. unfold base_level. destruct emb; reflexivity. }
  assert (SH : forall x y, show (text e s x y) = toward (dirFromClass s o) x y).
  { intros x y. unfold show. cbn [text p_l p_r p_dir]. f_equal. change (uax_lev e s) with (p_lev (text e s x y)). rewrite LE. unfold dirFromClass. rewrite C. unfold base_level. destruct emb; reflexivity. }
  induction ks as [|ch t IH]; intros a b F.
  - cbn [kid_pieces map kid_views]. rewrite G_first, G_nil by auto. cbn [flat_map]. rewrite app_nil_r. split; [apply SH|]. split; intros r.
    + cbn [app]. rewrite G_first by auto. reflexivity.
    + rewrite G_last by auto. reflexivity.
  - inversion F as [|? ? F1 F2]; subst. destruct (kid_arranged ch F1) as (f & mid & p & -> & CF & CP & KF & KP & M & AR & GK).
    destruct (IH (sr (last (f :: mid ++ [p]) f)) b F2) as (I1 & I2 & I3). cbn [map]. rewrite AR.
    cbn [kid_pieces kid_views]. rewrite <- AR. change (text e s a (sl f) :: map (inside e) (f :: mid ++ [p]) ++ ?x) with ([text e s a (sl f)] ++ map (inside e) (f :: mid ++ [p]) ++ x).
    cbn [app]. change (inside e f :: map (inside e) (mid ++ [p])) with (map (inside e) (f :: mid ++ [p])) in *.
    assert (L1 : last (f :: mid ++ [p]) f = p) by exact (last_last (f :: mid) p f).
    assert (L2' : last (arranged_kid (f :: mid ++ [p])) f = p) by (rewrite AR; exact (last_last (f :: _) p f)).
    rewrite L1 in *. rewrite L2'.
    assert (GE : forall rest, G (text e s a (sl f) :: (map (inside e) (f :: mid ++ [p]) ++ kid_pieces e s (sr p) t b) ++ rest) =
      text e s a (sl f) :: map (inside e) (arranged_kid (f :: mid ++ [p])) ++ G (kid_pieces e s (sr p) t b) ++ G rest).
    { intros rest. rewrite G_first by auto. rewrite <- app_assoc.
      assert (S1 : forall y, G (map (inside e) (f :: mid ++ [p]) ++ y) = G (map (inside e) (f :: mid ++ [p])) ++ G y).
      { intros y. assert (IP : p_lev (inside e p) = e) by (unfold inside; rewrite (pdi_iso p CP); reflexivity).
        change (f :: mid ++ [p]) with ((f :: mid) ++ [p]). rewrite map_app. generalize (map (inside e) (f :: mid)) as A. intros A. cbn [map].
        rewrite <- app_assoc. change ([inside e p] ++ y) with (inside e p :: y). rewrite G_delim, G_last by auto. rewrite <- app_assoc. reflexivity. }
      rewrite S1, I2, GK. reflexivity. }
    pose proof (GE []) as GE0. rewrite G_nil, !app_nil_r in GE0. split; [|split].
    + rewrite GE0. cbn [flat_map]. rewrite flat_map_app, I1, SH. f_equal. rewrite flat_map_map. f_equal. rewrite AR.
      assert (DF : dirFromClass f L2R = negb emb) by (unfold dirFromClass; rewrite CF; destruct emb; reflexivity).
      assert (DP : dirFromClass p (negb emb) = negb emb) by (unfold dirFromClass; rewrite CP; reflexivity).
      rewrite DF. cbn [flat_map]. rewrite !flat_map_app. cbn [flat_map]. rewrite (show_delims f (negb emb)); auto; [|unfold isisolate; rewrite CF; destruct emb; reflexivity|unfold dirFromClass; rewrite CF; destruct emb; reflexivity].
      rewrite (show_delims p (negb emb)) by (auto using pdi_iso). f_equal. f_equal. apply flat_map_ext_in. intros x H. rewrite <- in_rev, rev_blocks_in in H. rewrite Forall_forall in M. destruct (M x H). now apply show_inside.
    + intros rest. rewrite GE, GE0. rewrite <- app_comm_cons, <- app_assoc. reflexivity.
    + intros before. rewrite G_delim, G_first by auto. reflexivity.
Qed.

Lemma split_block (ss : list scrap) : Forall (fun s => opp emb s = true) ss \/ exists B s rest, ss = B ++ s :: rest /\ Forall (fun s => opp emb s = true) B /\ opp emb s = false.
Proof.
  induction ss as [|x t IH]; [left; constructor|]. destruct (opp emb x) eqn:O.
  - destruct IH as [IH|(B & s & rest & -> & F & E)]; [left; auto|]. right. exists (x :: B), s, rest. auto.
  - right. exists [], x, t. auto.
Qed.
Lemma opp_shallow s : shallow emb s -> opp emb s = true -> directed s /\ kids s = [].
Proof.
  intros (P & K & _) O. split.
  - destruct P as [P|(I & _)]; [exact P|]. rewrite opp_isolate in O by auto. discriminate.
  - destruct (kids s) eqn:E; [reflexivity|]. unfold opp, level in O. rewrite K in O by discriminate. destruct emb; discriminate O.
Qed.
Lemma level_ge s : shallow emb s -> Forall (fun p => e <= p_lev p <= e + 3) (pieces e s).
Proof.
  intros (P & K & F). unfold pieces. assert (X : forall x y, e <= p_lev (text e s x y) <= e + 3).
  { intros x y. unfold text. cbn [p_lev]. rewrite lev_top. destruct emb; [destruct (opp _ s)|destruct (number s); [|destruct (opp _ s)]]; lia. }
  generalize (sl s) as a, (sr s) as b. intros a b. clear P K. revert a. induction F as [|ch t FC _ IH]; intros a; cbn [kid_pieces]; [constructor; auto|].
  destruct ch as [|f r]; [apply IH|]. constructor; [auto|]. apply Forall_app. split; [|apply IH].
  destruct FC as (f' & mid & p & E & CF & CP & _ & _ & M & _). injection E as <- ->. apply Forall_map. constructor; [unfold inside, isisolate; rewrite CF; destruct emb; cbn; lia|].
  apply Forall_app. split; [|constructor; [unfold inside; rewrite (pdi_iso p CP); cbn [p_lev]; lia|constructor]].
  eapply Forall_impl; [|exact M]. intros x (PX & _). unfold inside. rewrite directed_iso by auto. unfold text. cbn [p_lev]. rewrite lev_in by auto.
  destruct emb; [destruct (number x); [|destruct (opp _ x)]|destruct (opp _ x)]; lia.
Qed.

Lemma block_pieces B : Forall (shallow emb) B -> Forall (fun s => opp emb s = true) B -> flat_map (pieces e) B = map single B /\ map (arrange emb) B = B /\
  forall o, flat_map show (map single (rev B)) = flat_map (view o) (rev B).
Proof.
  intros S O. assert (X : forall x, In x B -> directed x /\ kids x = []) by (rewrite Forall_forall in S, O; intros x H; apply opp_shallow; auto).
  split; [|split].
  - clear S O. induction B as [|x B IH]; [reflexivity|]. cbn [flat_map map]. unfold pieces at 1. rewrite (proj2 (X x (or_introl eq_refl))). cbn [kid_pieces app]. rewrite IH; [reflexivity|]. intros y H. apply X. now right.
  - apply map_nokids. apply Forall_forall. intros x H. apply (X x H).
  - intros o. rewrite flat_map_map. apply flat_map_ext_in. intros x H. rewrite <- in_rev in H. destruct (X x H). now apply show_single.
Qed.

Lemma arrange_view o c l r d ks : view o (arrange emb (mks c l r d ks)) = kid_views (dirFromClass (mks c l r d []) o) r l (map arranged_kid ks).
Proof. cbn [arrange]. rewrite view_eq. reflexivity. Qed.

Theorem order_L2 o : forall ss, Forall (shallow emb) ss -> (emb = L2R -> numbers_apart ss) ->
  flat_map show (G (flat_map (pieces e) ss)) = flat_map (view o) (arranged emb ss).
Proof.
  intros ss. remember (length ss) as n eqn:LN. revert ss LN. induction n as [n IH] using lt_wf_ind. intros ss -> S N. unfold arranged.
  destruct (split_block ss) as [O|(B & s & rest & -> & O & OS)].
  - destruct (block_pieces ss S O) as (-> & -> & V). rewrite G_block by auto. rewrite rev_blocks_all; [rewrite app_nil_r; apply V|]. rewrite Forall_forall in O. exact O.
  - apply Forall_app in S. destruct S as [SB SR]. inversion SR as [|? ? SS S2]; subst.
    assert (NB : emb = L2R -> numbers_apart B) by (intros H; apply (proj1 (apart_app B _ (N H)))).
    assert (NR : emb = L2R -> numbers_apart rest) by (intros H; apply (apart_app B _) in N; [|auto]; destruct N as [_ N]; apply (proj2 (apart_app [s] rest N))).
    destruct (block_pieces B SB O) as (PB & AB & V). rewrite flat_map_app, PB, map_app, AB. cbn [flat_map map].
    rewrite rev_blocks_delim by (rewrite arrange_opp; exact OS). rewrite (rev_blocks_all _ B) by (rewrite Forall_forall in O; exact O). rewrite app_nil_r.
    fold (arranged emb rest).
    assert (KEY : flat_map show (G (pieces e s)) = view o (arrange emb s) /\ (forall r, G (pieces e s ++ r) = G (pieces e s) ++ G r) /\ (forall b, G (b ++ pieces e s) = G b ++ G (pieces e s))).
    { destruct SS as (P & K & F). destruct (kids s) as [|k0 kt] eqn:EK.
      - (* no children *)
        assert (LE : forall x y, p_lev (text e s x y) = e).
        { intros x y. unfold text. cbn [p_lev]. rewrite lev_top, OS. destruct emb; [lia|]. destruct (number s) eqn:NU; [|lia]. unfold opp, level in OS. unfold number in NU. rewrite NU in OS. discriminate OS. }
        unfold pieces. rewrite EK. cbn [kid_pieces]. rewrite arrange_nokids by auto. split; [|split].
        + rewrite G_first, G_nil by auto. cbn [flat_map]. rewrite app_nil_r. destruct P as [P|(I & _ & Z0)]; [now apply show_single|].
          rewrite view_nokids by auto. unfold show, text. cbn [p_l p_r p_dir]. unfold toward. rewrite !zrange_nil by lia. reflexivity.
        + intros r. cbn [app]. rewrite !G_first, G_nil by auto. reflexivity.
        + intros b. rewrite G_last, G_first, G_nil by auto. reflexivity.
      - destruct s as [c l r d ks]. cbn [kids sl sr clz] in *. rewrite arrange_view. unfold pieces. cbn [kids sl sr]. subst ks.
        apply (kids_views o (mks c l r d (k0 :: kt))); auto. cbn [clz]. apply K. discriminate. }
    destruct KEY as (K1 & K2 & K3). assert (GG : G (map single B ++ pieces e s ++ flat_map (pieces e) rest) = G (map single B) ++ G (pieces e s) ++ G (flat_map (pieces e) rest)).
    { rewrite app_assoc. destruct (pieces e s) as [|x0 pt] eqn:EP.
      - exfalso. unfold pieces in EP. clear - EP SS. destruct SS as (_ & _ & F). destruct (kids s) as [|ch kt]; [discriminate EP|]. inversion F as [|? ? (f & mid & p & -> & _) _]; subst. discriminate EP.
      - assert (X0 : p_lev x0 = e).
        { clear - EP SS OS K1. destruct SS as (P & K & F). unfold pieces in EP.
          assert (LE : forall x y, p_lev (text e s x y) = e).
          { intros x y. unfold text. cbn [p_lev]. rewrite lev_top, OS. destruct emb; [lia|]. destruct (number s) eqn:NU; [|lia]. unfold opp, level in OS. unfold number in NU. rewrite NU in OS. discriminate OS. }
          destruct (kids s) as [|ch kt]; [injection EP as <- _; apply LE|]. inversion F as [|? ? (f & mid & p & -> & _) _]; subst. injection EP as <- _. apply LE. }
        rewrite <- app_assoc. cbn [app]. rewrite G_delim by auto. f_equal. rewrite <- K2. cbn [app]. rewrite G_first by auto. reflexivity. }
    rewrite GG, !flat_map_app, G_block by auto. rewrite (V o). f_equal. cbn [flat_map]. rewrite K1. f_equal.
    apply (IH (length rest)); auto. rewrite app_length. cbn [length]. lia.
Qed.
End Emb.

(* ---- spaced isolates fit ---- *)
Lemma zrange_one l r : r = l + 1 -> zrange l r = [l].
Proof. intros ->. unfold zrange. replace (l + 1 - l) with 1 by lia. change (Z.to_nat 1) with 1%nat. cbn [seq map]. now rewrite Z.add_0_r. Qed.
Lemma last_toward d x l r : l < r -> last_dir x (toward d l r) = d.
Proof.
  intros H. unfold last_dir, toward. replace (zrange l r) with (zrange l (r - 1) ++ zrange (r - 1) r) by (symmetry; apply zrange_app; lia).
  replace (zrange (r - 1) r) with [r - 1] by (symmetry; apply zrange_one; lia). rewrite map_app. cbn [map]. rewrite last_last. reflexivity.
Qed.
Lemma begins_toward d x l r v : l < r -> begins (toward d l r ++ v) x = Bool.eqb d x.
Proof.
  intros H. unfold toward. replace (zrange l r) with (zrange l (l + 1) ++ zrange (l + 1) r) by (symmetry; apply zrange_app; lia).
  replace (zrange l (l + 1)) with [l] by (symmetry; apply zrange_one; lia). reflexivity.
Qed.
Lemma fits_nokids emb s d : kids s = [] -> fits emb s d = true.
Proof. destruct s as [c l r x ks]. cbn [kids]. intros ->. reflexivity. Qed.
Lemma all_fit_nokids emb : forall l d, Forall (fun x => kids x = []) l -> all_fit emb l d = true.
Proof. induction l as [|x l IH]; intros d F; [reflexivity|]. inversion F; subst. cbn [all_fit]. rewrite fits_nokids by auto. now apply IH. Qed.
Lemma fits_spaced emb o s d : shallow emb s -> spaced (sl s) (kids s) -> fits o (arrange emb s) d = true.
Proof.
  destruct s as [c l r x ks]. intros (P & K & F) SP. cbn [kids clz sl] in *. cbn [arrange]. rewrite fits_eq.
  change (map _ ks) with (map (arranged_kid emb) ks). set (cd := dirFromClass (mks c l r x []) o).
  assert (CD : ks <> [] -> cd = emb) by (intros H; unfold cd, dirFromClass; cbn [clz]; rewrite (K H); destruct emb; reflexivity). clearbody cd. clear K P. revert l d SP CD.
  induction F as [|ch t FC _ IH]; intros l d SP CD; [reflexivity|].
  destruct (kid_arranged emb ch FC) as (f & mid & p & -> & CF & CP & KF & KP & M & AR & _). cbn [map]. cbn [spaced] in SP.
  rewrite AR. cbn [kid_fits]. rewrite <- AR.
  assert (L1 : last (f :: mid ++ [p]) f = p) by exact (last_last (f :: mid) p f).
  assert (L2' : last (arranged_kid emb (f :: mid ++ [p])) f = p) by (rewrite AR; exact (last_last (f :: _) p f)).
  rewrite L1 in *. rewrite L2'. destruct SP as (S1 & S2 & S3). rewrite CD in * by discriminate.
  assert (DF : dirFromClass f L2R = negb emb) by (unfold dirFromClass; rewrite CF; destruct emb; reflexivity). rewrite DF.
  apply andb_true_iff. split; [apply andb_true_iff; split|].
  - apply all_fit_nokids. rewrite AR. constructor; [auto|]. apply Forall_app. split; [|auto]. apply Forall_rev, rev_blocks_forall. eapply Forall_impl; [|exact M]. intros y Hy; exact (proj2 Hy).
  - rewrite AR. cbn [flat_map]. rewrite view_nokids by auto. replace (dirFromClass f (negb emb)) with (negb emb) by (unfold dirFromClass; rewrite CF; destruct emb; reflexivity).
    rewrite last_toward, begins_toward by auto. destruct emb; reflexivity.
  - apply IH; auto.
Qed.
Lemma all_spaced emb o : forall ss d, Forall (shallow emb) ss -> Forall (fun s => spaced (sl s) (kids s)) ss -> all_fit o (arranged emb ss) d = true.
Proof.
  intros ss d S P. assert (F : Forall (fun s => forall d, fits o s d = true) (arranged emb ss)).
  { apply rev_blocks_forall. apply Forall_map. rewrite Forall_forall in *. intros s H d'. apply fits_spaced; auto. }
  revert d. induction F as [|s t E _ IH]; intros d; [reflexivity|]. cbn [all_fit]. now rewrite E, IH.
Qed.

(* ---- Reorder follows L2 ---- *)
Theorem Reorder_L2 rl : Forall node (lv_scraps rl) -> Forall (shallow (lv_emb rl)) (lv_scraps rl) ->
  Forall (fun s => spaced (sl s) (kids s)) (lv_scraps rl) -> (lv_emb rl = L2R -> numbers_apart (lv_scraps rl)) ->
  exists runs, Reorder rl = Some runs /\ Forall run_ok runs /\ alternating None runs /\
    flat_map run_view runs = flat_map show (visual (lv_emb rl) (lv_scraps rl)).
Proof.
  intros N S P A. destruct (Reorder_nested rl N) as (runs & E & R & AL & V); [now apply all_spaced|]. exists runs. repeat match goal with |- _ /\ _ => split end; auto.
  rewrite V, visual_G; [symmetry; now apply order_L2|]. rewrite Forall_flat_map. eapply Forall_impl; [|exact S]. intros s H. now apply level_ge.
Qed.
