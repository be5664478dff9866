(* ClassProofs.v -- facts about the class tables, for every code point. *)
From Coq Require Import List ZArith Lia Bool.
From Verif Require Import Base ClassTables WidthSpec Classes.
From Verif Require Grapheme Words.
Import ListNotations.
Open Scope Z_scope.

(* ---- deciding relations between tables ---- *)
Lemma Is_spec t r : Is t r = true <-> exists l h, In (l, h) t /\ l <= r <= h.
Proof.
  unfold Is, in_range. rewrite existsb_exists. split.
  - intros ((l & h) & I & E). cbn in E. apply andb_true_iff in E. exists l, h. split; [exact I|]. lia.
  - intros (l & h & I & E). exists (l, h). split; [exact I|]. cbn. apply andb_true_iff. lia.
Qed.
Lemma Is_app a b r : Is (a ++ b) r = Is a r || Is b r.
Proof. apply existsb_app. Qed.

Definition disjoint (a b : ranges) : bool :=
  forallb (fun x => forallb (fun y => (snd x <? fst y) || (snd y <? fst x)) b) a.
Lemma disjoint_sound a b r : disjoint a b = true -> Is a r = true -> Is b r = true -> False.
Proof.
  intros D A B. apply Is_spec in A, B. destruct A as (l & h & I & A), B as (l' & h' & J & B).
  unfold disjoint in D. rewrite forallb_forall in D. specialize (D _ I). rewrite forallb_forall in D. specialize (D _ J). cbn in D. lia.
Qed.

(* is [l, h] covered by b *)
Fixpoint covered (n : nat) (b : ranges) (l h : Z) : bool :=
  if h <? l then true
  else match n with
       | O => false
       | S n => match find (in_range l) b with Some (_, e) => covered n b (e + 1) h | None => false end
       end.
Lemma covered_sound n : forall b l h r, covered n b l h = true -> l <= r <= h -> Is b r = true.
Proof.
  induction n as [|n IH]; intros b l h r C R; cbn in C; destruct (Z.ltb_spec h l); try lia; try discriminate.
  destruct (find (in_range l) b) as [[x e]|] eqn:F; [|discriminate]. apply find_some in F. destruct F as [I F].
  unfold in_range in F. cbn in F. destruct (Z.le_gt_cases r e).
  - apply Is_spec. exists x, e. split; [exact I|lia].
  - eapply IH; [exact C|lia].
Qed.
Definition subset (a b : ranges) : bool := forallb (fun x => covered (length b) b (fst x) (snd x)) a.
Lemma subset_sound a b r : subset a b = true -> Is a r = true -> Is b r = true.
Proof.
  intros S A. apply Is_spec in A. destruct A as (l & h & I & A). unfold subset in S. rewrite forallb_forall in S.
  exact (covered_sound _ _ _ _ r (S _ I) A).
Qed.

(* ---- classes are exclusive ---- *)
Fixpoint exclusive (ts : list ranges) : bool :=
  match ts with [] => true | t :: r => forallb (disjoint t) r && exclusive r end.
Lemma exclusive_sound ts : exclusive ts = true ->
  forall r i j a b, nth_error ts i = Some a -> nth_error ts j = Some b -> Is a r = true -> Is b r = true -> i = j.
Proof.
  induction ts as [|t ts IH]; intros E r i j a b Hi Hj A B; [destruct i; discriminate|].
  cbn in E. apply andb_true_iff in E. destruct E as [E1 E2]. rewrite forallb_forall in E1.
  destruct i, j; cbn in Hi, Hj; auto.
  - inversion Hi; subst. exfalso. eapply disjoint_sound; [apply (E1 b); eapply nth_error_In; eauto|exact A|exact B].
  - inversion Hj; subst. exfalso. eapply disjoint_sound; [apply (E1 a); eapply nth_error_In; eauto|exact B|exact A].
  - f_equal. eapply IH; eauto.
Qed.
Lemma lookup_unique ts c d r : exclusive ts = true -> lookup ts c r = true -> lookup ts d r = true -> c = d.
Proof.
  unfold lookup, zget. intros E A B.
  destruct (Z.leb_spec 0 c), (Z.ltb_spec c (zlen ts)); cbn [andb] in A; try discriminate.
  destruct (Z.leb_spec 0 d), (Z.ltb_spec d (zlen ts)); cbn [andb] in B; try discriminate.
  destruct (nth_error ts (Z.to_nat c)) eqn:X; [|discriminate]. destruct (nth_error ts (Z.to_nat d)) eqn:Y; [|discriminate].
  pose proof (exclusive_sound ts E r _ _ _ _ X Y A B). lia.
Qed.
Lemma gtables_exclusive : exclusive rangeFromGraphemeClass = true.
Proof. vm_compute. reflexivity. Qed.
Lemma wtables_exclusive : exclusive rangeFromUAX29Class = true.
Proof. vm_compute. reflexivity. Qed.

Lemma find_unique {A} (p : A -> bool) (l : list A) c : (forall a b, p a = true -> p b = true -> a = b) -> In c l ->
  (find p l = Some c <-> p c = true).
Proof.
  intros U I. split; [intros F; apply find_some in F; tauto|]. intros P.
  destruct (find p l) as [x|] eqn:F; [apply find_some in F; destruct F as [_ F]; f_equal; auto|].
  rewrite (find_none _ _ F c I) in P. discriminate.
Qed.
Lemma upto_in n c : 0 <= c < Z.of_nat n -> In c (map Z.of_nat (seq 0 n)).
Proof. intros H. apply in_map_iff. exists (Z.to_nat c). split; [lia|]. apply in_seq. lia. Qed.

Lemma gclass_iff r c : r <> 0 -> 0 <= c <= 12 -> (Grapheme.ClassForRune gtable r = c <-> gtable c r = true).
Proof.
  intros R C. unfold Grapheme.ClassForRune. destruct (Z.eqb_spec r 0); [contradiction|].
  rewrite <- (find_unique (fun c => gtable c r) _ c (fun a b => lookup_unique _ a b r gtables_exclusive) (upto_in 13 c ltac:(lia))).
  cbn [map seq Z.of_nat Pos.of_succ_nat Pos.succ]. destruct (find _ _) as [x|] eqn:F.
  - split; [intros ->; reflexivity|intros H; injection H; auto].
  - unfold Grapheme.Any. split; [lia|discriminate].
Qed.
Lemma wclass_iff r c : r <> 0 -> 0 <= c <= 17 -> (Words.ClassForRune wtable r = c <-> wtable c r = true).
Proof.
  intros R C. unfold Words.ClassForRune. destruct (Z.eqb_spec r 0); [contradiction|].
  rewrite <- (find_unique (fun c => wtable c r) _ c (fun a b => lookup_unique _ a b r wtables_exclusive) (upto_in 18 c ltac:(lia))).
  cbn [map seq Z.of_nat Pos.of_succ_nat Pos.succ]. destruct (find _ _) as [x|] eqn:F.
  - split; [intros ->; reflexivity|intros H; injection H; auto].
  - unfold Words.Other. split; [lia|discriminate].
Qed.
Lemma gclass_cases r : Grapheme.ClassForRune gtable r = 1001 /\ r = 0 \/ r <> 0 /\ 0 <= Grapheme.ClassForRune gtable r <= 12 \/
  r <> 0 /\ Grapheme.ClassForRune gtable r = 999 /\ forall c, gtable c r = false.
Proof.
  unfold Grapheme.ClassForRune. destruct (Z.eqb_spec r 0); [auto|]. right. destruct (find _ _) as [x|] eqn:F.
  - left. split; [auto|]. apply find_some in F. destruct F as [F _]. cbn in F. lia.
  - right. split; [auto|]. split; [reflexivity|]. intros c. destruct (gtable c r) eqn:G; [|reflexivity]. exfalso.
    unfold gtable, lookup, zget in G. destruct (_ && _) eqn:B; [|discriminate]. apply andb_true_iff in B. change (zlen rangeFromGraphemeClass) with 13 in B.
    pose proof (find_none _ _ F c (upto_in 13 c ltac:(lia))) as X. cbn beta in X. unfold gtable, lookup, zget in X.
    change (zlen rangeFromGraphemeClass) with 13 in X. destruct B as [B1 B2]. rewrite B1, B2 in X. cbn [andb] in X. congruence.
Qed.
Lemma wclass_cases r : Words.ClassForRune wtable r = 1001 /\ r = 0 \/ r <> 0 /\ 0 <= Words.ClassForRune wtable r <= 17 \/
  r <> 0 /\ Words.ClassForRune wtable r = 999 /\ forall c, wtable c r = false.
Proof.
  unfold Words.ClassForRune. destruct (Z.eqb_spec r 0); [auto|]. right. destruct (find _ _) as [x|] eqn:F.
  - left. split; [auto|]. apply find_some in F. destruct F as [F _]. cbn in F. lia.
  - right. split; [auto|]. split; [reflexivity|]. intros c. destruct (wtable c r) eqn:G; [|reflexivity]. exfalso.
    unfold wtable, lookup, zget in G. destruct (_ && _) eqn:B; [|discriminate]. apply andb_true_iff in B. change (zlen rangeFromUAX29Class) with 18 in B.
    pose proof (find_none _ _ F c (upto_in 18 c ltac:(lia))) as X. cbn beta in X. unfold wtable, lookup, zget in X.
    change (zlen rangeFromUAX29Class) with 18 in X. destruct B as [B1 B2]. rewrite B1, B2 in X. cbn [andb] in X. congruence.
Qed.

(* ---- pictographic characters ---- *)
Definition letter_pictographics : ranges := [(8505, 8505); (9410, 9410); (127344, 127345); (127358, 127359)].
Lemma pict_no_grapheme_class r c : pict r = true -> gtable c r = false.
Proof.
  intros P. destruct (gtable c r) eqn:G; [|reflexivity]. exfalso. unfold gtable, lookup in G.
  destruct (zget rangeFromGraphemeClass c) as [t|] eqn:Z; [|discriminate].
  assert (D : forallb (disjoint EmojiTab.Extended_Pictographic) rangeFromGraphemeClass = true) by (vm_compute; reflexivity).
  rewrite forallb_forall in D. unfold zget in Z. destruct (_ && _) in Z; [|discriminate].
  exact (disjoint_sound _ _ r (D t (nth_error_In _ _ Z)) P G).
Qed.
Lemma pict_word_class r c : pict r = true -> wtable c r = true -> c = Words.ALetter /\ Is letter_pictographics r = true.
Proof.
  intros P W. unfold wtable, lookup in W. destruct (zget rangeFromUAX29Class c) as [t|] eqn:Z; [|discriminate].
  unfold zget in Z. change (zlen rangeFromUAX29Class) with 18 in Z. destruct (_ && _) eqn:B in Z; [|discriminate].
  apply andb_true_iff in B. destruct (Z.eq_dec c 0) as [->|N].
  - split; [reflexivity|]. injection Z as <-.
    (* outside the six, pictographic characters are no letters *)
    assert (D : forallb (fun x => covered 20 (letter_pictographics) (fst x) (snd x) || negb (existsb (fun y => (fst x <=? snd y) && (fst y <=? snd x)) WordTab.ALetter))
        (concat (map (fun x => if existsb (fun y => (fst x <=? snd y) && (fst y <=? snd x)) letter_pictographics
           then map (fun i => (fst x + Z.of_nat i, fst x + Z.of_nat i)) (seq 0 (Z.to_nat (snd x - fst x + 1))) else [x]) EmojiTab.Extended_Pictographic)) = true)
      by (vm_compute; reflexivity).
    rewrite forallb_forall in D. apply Is_spec in P, W. destruct P as (l & h & I & P), W as (l' & h' & J & W).
    assert (Q : exists x, In x (concat (map (fun x => if existsb (fun y => (fst x <=? snd y) && (fst y <=? snd x)) letter_pictographics
           then map (fun i => (fst x + Z.of_nat i, fst x + Z.of_nat i)) (seq 0 (Z.to_nat (snd x - fst x + 1))) else [x]) EmojiTab.Extended_Pictographic))
        /\ fst x <= r <= snd x).
    { destruct (existsb (fun y => (l <=? snd y) && (fst y <=? h)) letter_pictographics) eqn:X.
      - exists (r, r). split; [|cbn; lia]. apply in_concat. eexists. split; [apply in_map; exact I|]. cbn [fst snd]. rewrite X.
        apply in_map_iff. exists (Z.to_nat (r - l)). split; [f_equal; lia|]. apply in_seq. lia.
      - exists (l, h). split; [|exact P]. apply in_concat. eexists. split; [apply in_map; exact I|]. cbn [fst snd]. rewrite X. left. reflexivity. }
    destruct Q as (x & IQ & Q). specialize (D x IQ). apply orb_true_iff in D. destruct D as [D|D]; [exact (covered_sound _ _ _ _ r D Q)|].
    exfalso. apply negb_true_iff in D. rewrite <- not_true_iff_false in D. apply D. apply existsb_exists. exists (l', h'). split; [exact J|]. cbn [fst snd].
    apply andb_true_iff. lia.
  - exfalso. assert (D : forallb (disjoint EmojiTab.Extended_Pictographic) (tl rangeFromUAX29Class) = true) by (vm_compute; reflexivity).
    rewrite forallb_forall in D. refine (disjoint_sound _ _ r (D t _) P W).
    replace (Z.to_nat c) with (S (Z.to_nat (c - 1))) in Z by lia. cbn [rangeFromUAX29Class nth_error] in Z. exact (nth_error_In _ _ Z).
Qed.
Lemma letter_pictographics_are r : Is letter_pictographics r = true -> pict r = true /\ wtable Words.ALetter r = true.
Proof.
  intros L. split.
  - apply (subset_sound letter_pictographics); [vm_compute; reflexivity|exact L].
  - apply (subset_sound letter_pictographics WordTab.ALetter); [vm_compute; reflexivity|exact L].
Qed.

(* ---- what the class functions return ---- *)
Lemma gclass_table r c : 0 <= c <= 12 -> (gclass r = c <-> r <> 0 /\ gtable c r = true).
Proof.
  intros C. unfold gclass, Grapheme.CodePointClassFor. destruct (Z.eq_dec r 0) as [->|R].
  - change (Grapheme.ClassForRune gtable 0) with 1001. change ((1001 =? Grapheme.Any) && pict 0) with false. cbv iota.
    split; [lia|intros [? _]; contradiction].
  - rewrite <- (gclass_iff r c R C). destruct (Z.eqb_spec (Grapheme.ClassForRune gtable r) Grapheme.Any) as [E|N]; cbn [andb].
    + rewrite E. unfold Grapheme.Any, Grapheme.Pictographic. destruct (pict r); split; try lia; intros [_ ?]; lia.
    + tauto.
Qed.
Lemma gclass_pict r : gclass r = Grapheme.Pictographic <-> pict r = true.
Proof.
  unfold gclass, Grapheme.CodePointClassFor. destruct (gclass_cases r) as [[E ->]|[[R E]|[R [E N]]]].
  - rewrite E. change ((1001 =? Grapheme.Any) && pict 0) with false. change (pict 0) with false. unfold Grapheme.Pictographic. split; [lia|discriminate].
  - destruct (Z.eqb_spec (Grapheme.ClassForRune gtable r) Grapheme.Any) as [X|X]; [unfold Grapheme.Any in X; lia|]. cbn [andb].
    split; [unfold Grapheme.Pictographic; lia|]. intros P. exfalso. pose proof (proj1 (gclass_iff r _ R E) eq_refl) as T.
    rewrite (pict_no_grapheme_class r _ P) in T. discriminate.
  - rewrite E. change (999 =? Grapheme.Any) with true. cbn [andb]. destruct (pict r); [tauto|]. unfold Grapheme.Pictographic. split; [lia|discriminate].
Qed.
Lemma gclass_other r : gclass r = Grapheme.Any <-> r <> 0 /\ (forall c, gtable c r = false) /\ pict r = false.
Proof.
  unfold gclass, Grapheme.CodePointClassFor. destruct (gclass_cases r) as [[E ->]|[[R E]|[R [E N]]]].
  - rewrite E. change ((1001 =? Grapheme.Any) && pict 0) with false. unfold Grapheme.Any. split; [lia|tauto].
  - destruct (Z.eqb_spec (Grapheme.ClassForRune gtable r) Grapheme.Any) as [X|X]; [unfold Grapheme.Any in X; lia|]. cbn [andb].
    split; [contradiction|]. intros (_ & T & _). rewrite (proj1 (gclass_iff r _ R E) eq_refl) in T || (specialize (T (Grapheme.ClassForRune gtable r)); rewrite (proj1 (gclass_iff r _ R E) eq_refl) in T); discriminate.
  - rewrite E. change (999 =? Grapheme.Any) with true. cbn [andb]. destruct (pict r); unfold Grapheme.Pictographic, Grapheme.Any; split; try lia; auto.
    all: intros (_ & _ & ?); discriminate.
Qed.
Lemma wclass_table r c : 0 <= c <= 17 -> (wclass r = c <-> r <> 0 /\ wtable c r = true).
Proof.
  intros C. unfold wclass, Words.CodePointClassFor. destruct (Z.eq_dec r 0) as [->|R].
  - change (Words.ClassForRune wtable 0) with 1001. change ((1001 =? Words.Other) && pict 0) with false. cbv iota.
    split; [lia|intros [? _]; contradiction].
  - rewrite <- (wclass_iff r c R C). destruct (Z.eqb_spec (Words.ClassForRune wtable r) Words.Other) as [E|N]; cbn [andb].
    + rewrite E. unfold Words.Other, Words.Pictographic. destruct (pict r); split; try lia; intros [_ ?]; lia.
    + tauto.
Qed.
(* WB3c sees a pictographic character unless it is one of the six *)
Lemma wclass_pict r : wclass r = Words.Pictographic <-> pict r = true /\ Is letter_pictographics r = false.
Proof.
  unfold wclass, Words.CodePointClassFor. destruct (wclass_cases r) as [[E ->]|[[R E]|[R [E N]]]].
  - rewrite E. change ((1001 =? Words.Other) && pict 0) with false. change (pict 0) with false. unfold Words.Pictographic. split; [lia|intros []; discriminate].
  - destruct (Z.eqb_spec (Words.ClassForRune wtable r) Words.Other) as [X|X]; [unfold Words.Other in X; lia|]. cbn [andb].
    split; [unfold Words.Pictographic; lia|]. intros [P L]. exfalso. pose proof (proj1 (wclass_iff r _ R E) eq_refl) as T.
    destruct (pict_word_class r _ P T) as [_ X1]. congruence.
  - rewrite E. change (999 =? Words.Other) with true. cbn [andb]. destruct (pict r) eqn:P.
    + split; [|reflexivity]. intros _. split; [reflexivity|]. destruct (Is letter_pictographics r) eqn:L; [|reflexivity].
      apply letter_pictographics_are in L. rewrite N in L. destruct L. discriminate.
    + unfold Words.Pictographic. split; [lia|intros []; discriminate].
Qed.

(* ---- Hangul syllables and regional indicators ---- *)
Definition syllable (r : Z) : bool := (44032 <=? r) && (r <=? 55203).
Lemma LV_table : GraphemeTab.LV = map (fun k => (44032 + 28 * Z.of_nat k, 44032 + 28 * Z.of_nat k)) (seq 0 399).
Proof. vm_compute. reflexivity. Qed.
Lemma LVT_table : GraphemeTab.LVT = map (fun k => (44032 + 28 * Z.of_nat k + 1, 44032 + 28 * Z.of_nat k + 27)) (seq 0 399).
Proof. vm_compute. reflexivity. Qed.
Lemma gclass_LV r : gclass r = Grapheme.cLV <-> syllable r = true /\ (r - 44032) mod 28 = 0.
Proof.
  rewrite (gclass_table r Grapheme.cLV) by (unfold Grapheme.cLV; lia). change (gtable Grapheme.cLV r) with (Is GraphemeTab.LV r).
  rewrite Is_spec, LV_table. unfold syllable. rewrite andb_true_iff, Z.leb_le, Z.leb_le. split.
  - intros (_ & l & h & I & B). apply in_map_iff in I. destruct I as (k & E & I). apply in_seq in I. apply pair_equal_spec in E. destruct E as [El Eh].
    assert (r = 44032 + 28 * Z.of_nat k) as -> by lia. split; [lia|]. replace (44032 + 28 * Z.of_nat k - 44032) with (Z.of_nat k * 28) by lia. apply Z.mod_mul. lia.
  - intros [B M]. split; [lia|]. apply Z.div_exact in M; [|lia]. set (q := (r - 44032) / 28) in *.
    exists r, r. split; [|lia]. apply in_map_iff. exists (Z.to_nat q). split; [apply pair_equal_spec; lia|]. apply in_seq. lia.
Qed.
Lemma gclass_LVT r : gclass r = Grapheme.cLVT <-> syllable r = true /\ (r - 44032) mod 28 <> 0.
Proof.
  rewrite (gclass_table r Grapheme.cLVT) by (unfold Grapheme.cLVT; lia). change (gtable Grapheme.cLVT r) with (Is GraphemeTab.LVT r).
  rewrite Is_spec, LVT_table. unfold syllable. rewrite andb_true_iff, Z.leb_le, Z.leb_le. split.
  - intros (_ & l & h & I & B). apply in_map_iff in I. destruct I as (k & E & I). apply in_seq in I. apply pair_equal_spec in E. destruct E as [El Eh].
    split; [lia|]. pose proof (Z.div_mod (r - 44032) 28 ltac:(lia)). lia.
  - intros [B M]. split; [lia|]. pose proof (Z.div_mod (r - 44032) 28 ltac:(lia)) as D. pose proof (Z.mod_pos_bound (r - 44032) 28 ltac:(lia)).
    set (q := (r - 44032) / 28) in *. exists (44032 + 28 * q + 1), (44032 + 28 * q + 27). split; [|lia].
    apply in_map_iff. exists (Z.to_nat q). split; [apply pair_equal_spec; lia|]. apply in_seq. lia.
Qed.
Lemma gclass_L r : gclass r = Grapheme.cL <-> 4352 <= r <= 4447 \/ 43360 <= r <= 43388.
Proof.
  rewrite (gclass_table r Grapheme.cL) by (unfold Grapheme.cL; lia). change (gtable Grapheme.cL r) with (Is [(4352, 4447); (43360, 43388)] r).
  unfold Is, in_range, existsb, fst, snd. lia.
Qed.
Lemma gclass_V r : gclass r = Grapheme.cV <-> 4448 <= r <= 4519 \/ 55216 <= r <= 55238.
Proof.
  rewrite (gclass_table r Grapheme.cV) by (unfold Grapheme.cV; lia). change (gtable Grapheme.cV r) with (Is [(4448, 4519); (55216, 55238)] r).
  unfold Is, in_range, existsb, fst, snd. lia.
Qed.
Lemma gclass_T r : gclass r = Grapheme.cT <-> 4520 <= r <= 4607 \/ 55243 <= r <= 55291.
Proof.
  rewrite (gclass_table r Grapheme.cT) by (unfold Grapheme.cT; lia). change (gtable Grapheme.cT r) with (Is [(4520, 4607); (55243, 55291)] r).
  unfold Is, in_range, existsb, fst, snd. lia.
Qed.
Lemma gclass_RI r : gclass r = Grapheme.RI <-> 127462 <= r <= 127487.
Proof.
  rewrite (gclass_table r Grapheme.RI) by (unfold Grapheme.RI; lia). change (gtable Grapheme.RI r) with (Is [(127462, 127487)] r).
  unfold Is, in_range, existsb, fst, snd. lia.
Qed.
Lemma wclass_RI r : wclass r = Words.RI <-> 127462 <= r <= 127487.
Proof.
  rewrite (wclass_table r Words.RI) by (unfold Words.RI; lia). change (wtable Words.RI r) with (Is [(127462, 127487)] r).
  unfold Is, in_range, existsb, fst, snd. lia.
Qed.
Lemma gclass_CR r : gclass r = Grapheme.CR <-> r = 13.
Proof.
  rewrite (gclass_table r Grapheme.CR) by (unfold Grapheme.CR; lia). change (gtable Grapheme.CR r) with (Is [(13, 13)] r).
  unfold Is, in_range, existsb, fst, snd. lia.
Qed.
Lemma gclass_LF r : gclass r = Grapheme.LF <-> r = 10.
Proof.
  rewrite (gclass_table r Grapheme.LF) by (unfold Grapheme.LF; lia). change (gtable Grapheme.LF r) with (Is [(10, 10)] r).
  unfold Is, in_range, existsb, fst, snd. lia.
Qed.
Lemma wclass_CR r : wclass r = Words.CR <-> r = 13.
Proof.
  rewrite (wclass_table r Words.CR) by (unfold Words.CR; lia). change (wtable Words.CR r) with (Is [(13, 13)] r).
  unfold Is, in_range, existsb, fst, snd. lia.
Qed.
Lemma wclass_LF r : wclass r = Words.LF <-> r = 10.
Proof.
  rewrite (wclass_table r Words.LF) by (unfold Words.LF; lia). change (wtable Words.LF r) with (Is [(10, 10)] r).
  unfold Is, in_range, existsb, fst, snd. lia.
Qed.
