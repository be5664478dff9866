(* Uax9IsoText.v -- from texts with isolates to the resolved classes. *)
From Coq Require Import List ZArith Lia Bool.
From Verif Require Import Base Scrap Brackets Trie Rules RuleProofs Reorder ReorderSpec ReorderProofs SplitProofs Scanner ScannerProofs Resolver ResolverProofs ResolverFlat ResolverNested ResolverText Uax9Spec Uax9Proofs Uax9Rewrite Uax9Resolve Uax9Text NestedText ScanContext Uax9IsoSpec Uax9IsoResolve.
Import ListNotations.
Open Scope Z_scope.

Section Ind.
Context (P : item -> Prop) (HC : forall c n, P (Char c n)) (HI : forall c n content m, Forall P content -> P (Isolate c n content m)).
Fixpoint item_ind2 (it : item) : P it :=
  match it with
  | Char c n => HC c n
  | Isolate c n content m => HI c n content m
      ((fix go l : Forall P l := match l with [] => Forall_nil P | x :: t => Forall_cons x (item_ind2 x) (go t) end) content)
  end.
End Ind.

(* ---- the texts ---- *)
Notation sum := (fold_right Z.add 0).
Definition widths (its : list item) : Z := sum (map snd (flat_map flat its)).

(* The sequence of a level after W1 and W3, all neutrals being NI, an isolate being one run of class LRI. *)
Fixpoint entries (pv : Z) (its : list item) : list (Z * Z) :=
  match its with
  | [] => []
  | Char c n :: t => let k := if c =? cNSM then pv else c in (norm k, n) :: entries k t
  | (Isolate _ _ _ _ as it) :: t => (cLRI, width it) :: entries cON t
  end.
(* Groups of neutrals as in tidy of Uax9Text.v, in every level.  An isolate is not the last run of a
   group of several, unless the group gets the embedding direction anyway. *)
Definition tidy_level (e : Z) (its : list item) : bool := tidy_runs e false e false (map fst (runs_of solo_class (entries e its))).
Fixpoint tidy_in (it : item) : bool :=
  match it with
  | Char _ _ => true
  | Isolate c _ content _ => tidy_level (inner_dir c) content && forallb tidy_in content
  end.
Definition tidy_items (e : Z) (its : list item) : bool := tidy_level e its && forallb tidy_in its.

(* The classes; isolates ([ok]) at levels of direction L only. *)
Fixpoint shaped (ok : bool) (it : item) : bool :=
  match it with
  | Char c _ => existsb (Z.eqb c) (cNSM :: raw9)
  | Isolate c _ content _ => ok && ((c =? cLRI) || (c =? cRLI)) && forallb (shaped (c =? cLRI)) content
  end.

(* ---- lists ---- *)
Lemma sum_app a b : sum (a ++ b) = sum a + sum b.
Proof. induction a as [|x a IH]; cbn [app fold_right]; [reflexivity|rewrite IH; lia]. Qed.
Lemma width_iso c n content m : width (Isolate c n content m) = n + widths content + m.
Proof. unfold width, widths. cbn [flat map snd fold_right]. rewrite map_app, sum_app. cbn. lia. Qed.
Lemma widths_cons it t : widths (it :: t) = width it + widths t.
Proof. unfold width, widths. cbn [flat_map]. rewrite map_app, sum_app. reflexivity. Qed.

Definition pos_it (it : item) : Prop := Forall (fun x => 0 <= snd x) (flat it).
Lemma sum_pos l : Forall (fun x : Z * Z => 0 <= snd x) l -> 0 <= sum (map snd l).
Proof. induction 1; cbn; lia. Qed.
Lemma pos_iso c n content m : pos_it (Isolate c n content m) -> 0 <= n /\ Forall pos_it content /\ 0 <= m /\ 0 <= widths content.
Proof.
  unfold pos_it at 1. cbn [flat]. intros H. inversion H as [|? ? H1 H2]; subst. apply Forall_app in H2. destruct H2 as [H2 H3]. inversion H3; subst. cbn [snd] in *.
  split; auto. split; [|split; [auto|apply sum_pos; auto]]. rewrite Forall_flat_map in H2. exact H2.
Qed.

(* ---- runs of a list with solo elements ---- *)
Lemma ahead_runs e solo : forall l, ahead e (map fst (runs_of solo l)) = ahead e (map fst l).
Proof.
  induction l as [|[c n] t IH]; [reflexivity|]. cbn [runs_of map fst ahead]. rewrite <- IH. destruct (runs_of solo t) as [|[d m] u]; [reflexivity|].
  destruct (Z.eqb_spec c d) as [<-|_]; cbn [andb]; [|reflexivity]. destruct (solo c); [reflexivity|]. cbn [negb map fst ahead].
  destruct ((c =? cL) || (c =? cEN)); [reflexivity|]. destruct (c =? cR); reflexivity.
Qed.
Lemma en_runs solo : forall l, en_ahead (map fst (runs_of solo l)) = en_ahead (map fst l).
Proof.
  induction l as [|[c n] t IH]; [reflexivity|]. cbn [runs_of map fst en_ahead]. rewrite <- IH. destruct (runs_of solo t) as [|[d m] u]; [reflexivity|].
  destruct (Z.eqb_spec c d) as [<-|_]; cbn [andb]; [|reflexivity]. destruct (solo c); [reflexivity|]. cbn [negb map fst en_ahead].
  destruct (c =? cET); reflexivity.
Qed.
Lemma runs_pos solo : forall l, Forall (fun x => 0 <= snd x) l -> Forall (fun x => 0 <= snd x) (runs_of solo l).
Proof.
  induction 1 as [|[c n] t H _ IH]; [constructor|]. cbn [runs_of]. destruct IH as [|[d m] u H1 H2]; [repeat constructor; auto|].
  destruct (_ && _); repeat constructor; cbn in *; auto; lia.
Qed.
Lemma fcP_runs2 e solo : forall l, Forall (fun x => 0 <= snd x) l ->
  forall q p, fcP e q p (map natp (runs_of solo l)) = fcP e q p (map natp l).
Proof.
  induction l as [|[c n] t IH]; intros L q p; [reflexivity|]. inversion L as [|? ? L1 L2]; subst. cbn [fst snd] in *.
  pose proof (runs_pos solo t L2) as LR.
  assert (ST : forall q p, fcP e q p (map natp ((c, n) :: runs_of solo t)) = fcP e q p (map natp ((c, n) :: t))).
  { intros q' p'. cbn [map fcP natp fst snd].
    assert (C : forall l, cls (map natp l) = map fst l) by (intros; unfold cls; rewrite map_map; reflexivity).
    rewrite !C. unfold number. rewrite en_runs, ahead_runs. rewrite !IH by auto. reflexivity. }
  rewrite <- ST. cbn [runs_of]. destruct (runs_of solo t) as [|[d m] u]; [reflexivity|].
  destruct (Z.eqb_spec c d) as [->|_]; [|reflexivity]. cbn [andb]. destruct (solo d); [reflexivity|]. cbn [negb].
  inversion LR as [|? ? L3 _]; subst. cbn [snd] in L3.
  cbn [map]. unfold natp at 1 3 4. cbn [fst snd]. rewrite fcP_join, Z2Nat.inj_add by auto. reflexivity.
Qed.
Lemma runs_app_solo solo c n : solo c = true -> forall a b, runs_of solo (a ++ (c, n) :: b) = runs_of solo a ++ (c, n) :: runs_of solo b.
Proof.
  intros S. induction a as [|[d m] a IH]; intros b.
  - cbn [app runs_of]. destruct (runs_of solo b) as [|[d m] u]; [reflexivity|]. rewrite S, andb_false_r. reflexivity.
  - cbn [app runs_of]. rewrite IH. destruct (runs_of solo a) as [|[f k] u]; cbn [app]; [|destruct (_ && _); reflexivity].
    destruct (Z.eqb_spec d c) as [->|_]; [rewrite S|]; reflexivity.
Qed.
Lemma runs_cons_solo solo c n b : solo c = true -> runs_of solo ((c, n) :: b) = (c, n) :: runs_of solo b.
Proof. intros S. apply (runs_app_solo solo c n S []). Qed.

(* ---- the tree of runs ---- *)
Fixpoint settle (pv : Z) (it : item) : item * Z :=
  match it with
  | Char c n => let k := if c =? cNSM then pv else c in (Char (norm k) n, k)
  | Isolate c n content m =>
      (Isolate c n ((fix go pv l := match l with [] => [] | x :: t => fst (settle pv x) :: go (snd (settle pv x)) t end) (inner_dir c) content) m, cON)
  end.
Fixpoint settles (pv : Z) (l : list item) : list item :=
  match l with [] => [] | x :: t => fst (settle pv x) :: settles (snd (settle pv x)) t end.
Lemma settle_iso pv c n content m : settle pv (Isolate c n content m) = (Isolate c n (settles (inner_dir c) content) m, cON).
Proof. reflexivity. Qed.

Fixpoint joins (l : list item) : list item :=
  match l with
  | [] => []
  | Char c n :: t =>
      match joins t with
      | Char d m :: u => if c =? d then Char c (n + m) :: u else Char c n :: Char d m :: u
      | u => Char c n :: u
      end
  | it :: t => it :: joins t
  end.
Fixpoint join (it : item) : item :=
  match it with
  | Char c n => Char c n
  | Isolate c n content m => Isolate c n (joins (map join content)) m
  end.
(* The runs of the level. *)
Definition entry (it : item) : Z * Z := match it with Char c n => (c, n) | Isolate _ _ _ _ => (cLRI, width it) end.

Lemma sum_runs solo : forall l, sum (map snd (runs_of solo l)) = sum (map snd l).
Proof.
  induction l as [|[c n] t IH]; [reflexivity|]. cbn [runs_of map snd fold_right]. rewrite <- IH. destruct (runs_of solo t) as [|[d m] u]; [reflexivity|].
  destruct (_ && _); cbn [map snd fold_right]; lia.
Qed.

(* Characters of a level have no solo class, isolates have proper initiators. *)
Inductive sound : item -> Prop :=
| sound_char c n : solo_class c = false -> sound (Char c n)
| sound_iso c n content m : solo_class c = true -> Forall sound content -> sound (Isolate c n content m).

Lemma joins_sound l : Forall sound l -> Forall sound (joins l).
Proof.
  induction 1 as [|it t S _ IH]; [constructor|]. destruct S as [c n S|c n content m S F]; cbn [joins].
  - destruct (joins t) as [|[d k|d k l k'] u]; [repeat constructor; auto| |constructor; [constructor; auto|auto]].
    inversion IH as [|? ? I1 I2]; subst. destruct (_ =? _); repeat constructor; auto. inversion I1; auto.
  - constructor; [constructor; auto|auto].
Qed.
Lemma join_sound it : sound it -> sound (join it).
Proof.
  induction it as [c n|c n content m IH] using item_ind2; intros S; [exact S|]. inversion S as [|? ? ? ? S1 S2]; subst. cbn [join]. constructor; auto.
  apply joins_sound. clear - IH S2. induction S2 as [|x t S _ IHt]; [constructor|]. inversion IH; subst. cbn [map]. constructor; auto.
Qed.

Lemma joins_flat : forall l, Forall (fun x => sound x /\ flat (join x) = runs_of solo_class (flat x)) l ->
  flat_map flat (joins (map join l)) = runs_of solo_class (flat_map flat l).
Proof.
  induction l as [|it t IH]; intros H; [reflexivity|]. inversion H as [|? ? [S J] H2]; subst. specialize (IH H2).
  assert (ST : Forall sound (joins (map join t))).
  { apply joins_sound. clear - H2. induction H2 as [|x t [S _] _ IH]; [constructor|]. cbn. constructor; auto using join_sound. }
  destruct S as [c n S|c n content m S F].
  - cbn [map join joins flat_map flat app]. cbn [runs_of]. rewrite <- IH. clear IH.
    destruct (joins (map join t)) as [|[d k|d k l k'] u]; [reflexivity| |].
    + cbn [flat_map flat app]. rewrite S. destruct (Z.eqb_spec c d) as [<-|_]; reflexivity.
    + cbn [flat_map flat app]. rewrite S. cbn [negb]. rewrite andb_true_r.
      destruct (Z.eqb_spec c d) as [<-|_]; [|reflexivity]. inversion ST as [|? ? S1 _]; subst. inversion S1; congruence.
  - change (joins (map join (Isolate c n content m :: t))) with (join (Isolate c n content m) :: joins (map join t)). cbn [flat_map]. rewrite J, IH.
    cbn [flat]. rewrite <- app_comm_cons, <- !app_assoc. cbn [app].
    rewrite !(runs_cons_solo solo_class c n _ S), !(runs_app_solo solo_class cPDI m eq_refl). rewrite <- app_comm_cons, <- app_assoc. reflexivity.
Qed.
Lemma join_flat it : sound it -> flat (join it) = runs_of solo_class (flat it).
Proof.
  induction it as [c n|c n content m IH] using item_ind2; intros S; [reflexivity|]. inversion S as [|? ? ? ? S1 S2]; subst. cbn [join flat].
  rewrite (runs_cons_solo solo_class c n _ S1). rewrite (runs_app_solo solo_class cPDI m eq_refl). cbn [runs_of]. rewrite joins_flat; [reflexivity|].
  clear - IH S2. induction S2 as [|x t S _ IHt]; [constructor|]. inversion IH; subst. constructor; auto.
Qed.
Lemma joins_flat2 l : Forall sound l -> flat_map flat (joins (map join l)) = runs_of solo_class (flat_map flat l).
Proof. intros H. apply joins_flat. eapply Forall_impl; [|exact H]. intros x S. split; auto using join_flat. Qed.

Lemma width_join it : sound it -> width (join it) = width it.
Proof. intros S. unfold width. rewrite join_flat by auto. apply sum_runs. Qed.
Lemma widths_joins l : Forall sound l -> widths (joins (map join l)) = widths l.
Proof. intros S. unfold widths. rewrite joins_flat2 by auto. apply sum_runs. Qed.

(* The runs of a level. *)
Lemma entries_joins : forall l, Forall sound l -> map entry (joins (map join l)) = runs_of solo_class (map entry l).
Proof.
  induction 1 as [|it t S ST IH]; [reflexivity|]. pose proof S as S0. destruct S as [c n S|c n content m S F].
  - cbn [map join joins entry runs_of]. rewrite <- IH. clear IH.
    destruct (joins (map join t)) as [|[d k|d k l k'] u]; [reflexivity| |].
    + cbn [map entry]. rewrite S. destruct (Z.eqb_spec c d) as [<-|_]; reflexivity.
    + cbn [map entry]. rewrite S. cbn [negb]. rewrite andb_true_r. destruct (Z.eqb_spec c cLRI) as [->|_]; [discriminate S|reflexivity].
  - change (joins (map join (Isolate c n content m :: t))) with (join (Isolate c n content m) :: joins (map join t)). cbn [map]. rewrite IH.
    change (entry (Isolate c n content m)) with (cLRI, width (Isolate c n content m)).
    rewrite (runs_cons_solo solo_class cLRI _ _ eq_refl). f_equal. cbn [join entry]. rewrite <- (width_join _ S0). reflexivity.
Qed.

(* ---- settling ---- *)
Lemma settle_width it : forall pv, width (fst (settle pv it)) = width it.
Proof.
  induction it as [c n|c n content m IH] using item_ind2; intros pv; [reflexivity|]. rewrite settle_iso. cbn [fst]. rewrite !width_iso. f_equal. f_equal.
  generalize (inner_dir c). induction IH as [|x t H _ IHt]; intros p; [reflexivity|]. cbn [settles]. rewrite !widths_cons, H, IHt. reflexivity.
Qed.
Lemma settles_entries : forall l pv, map entry (settles pv l) = entries pv l.
Proof.
  induction l as [|[c n|c n content m] t IH]; intros pv; [reflexivity| |].
  - cbn [settles settle fst snd map entry entries]. rewrite IH. reflexivity.
  - cbn [settles map entries]. pose proof (settle_width (Isolate c n content m) pv) as W. rewrite settle_iso in *. cbn [fst snd] in *. rewrite IH. cbn [entry]. rewrite W. reflexivity.
Qed.

Lemma run_solo c : In c run9 -> solo_class c = false.
Proof. cbn [run9 In]. intros I. repeat (destruct I as [<-|I]; [reflexivity|]). contradiction I. Qed.
Lemma raw_run c : In c raw9 -> In (norm c) run9.
Proof. intros I. cases9 I; cbn; auto 9. Qed.
Lemma in_raw c : existsb (Z.eqb c) (cNSM :: raw9) = true -> In c (cNSM :: raw9).
Proof. intros H. apply existsb_exists in H. destruct H as (x & I & E). apply Z.eqb_eq in E. subst x. exact I. Qed.
Lemma in_raw2 c : In c (cNSM :: raw9) -> c <> cNSM -> In c raw9.
Proof. intros [E|I] N; [congruence|exact I]. Qed.
Lemma dir_raw c : In (inner_dir c) raw9 /\ (inner_dir c = cL \/ inner_dir c = cR).
Proof. unfold inner_dir. destruct (_ =? _); cbn; auto. Qed.

Lemma settle_sound it : forall ok pv, shaped ok it = true -> In pv raw9 -> sound (fst (settle pv it)) /\ In (snd (settle pv it)) raw9.
Proof.
  induction it as [c n|c n content m IH] using item_ind2; intros ok pv H P.
  - cbn [settle fst snd]. set (k := if c =? cNSM then pv else c). assert (K : In k raw9).
    { unfold k. destruct (Z.eqb_spec c cNSM); [exact P|]. apply in_raw2; auto. apply in_raw, H. }
    split; [|exact K]. constructor. apply run_solo, raw_run, K.
  - rewrite settle_iso. cbn [fst snd]. split; [|cbn; auto 12]. cbn [shaped] in H. apply andb_true_iff in H. destruct H as [H1 H2].
    apply andb_true_iff in H1. destruct H1 as [_ H1]. constructor.
    + apply orb_true_iff in H1. rewrite !Z.eqb_eq in H1. destruct H1 as [-> | ->]; reflexivity.
    + revert H2. generalize (proj1 (dir_raw c)). generalize (inner_dir c). induction IH as [|x t H _ IHt]; intros p P' H2; [constructor|].
      cbn [forallb] in H2. apply andb_true_iff in H2. destruct H2 as [H2 H3]. cbn [settles]. destruct (H _ p H2 P') as [A B]. constructor; auto.
Qed.
Lemma settles_sound ok : forall l pv, forallb (shaped ok) l = true -> In pv raw9 -> Forall sound (settles pv l).
Proof.
  induction l as [|x t IH]; intros pv H P; [constructor|]. cbn [forallb] in H. apply andb_true_iff in H. destruct H as [H1 H2]. cbn [settles].
  destruct (settle_sound x ok pv H1 P) as [A B]. constructor; auto.
Qed.

(* The text after W1 and W3, as the scanner has it. *)
Definition chars_of (p : Z) (l : list (Z * Z)) : list (Z * Z) := combine (map norm (marked p (map fst l))) (map snd l).
Definition mlast (p : Z) (cs : list Z) : Z := fold_left class_of cs p.
Lemma marked_app : forall a p b, marked p (a ++ b) = marked p a ++ marked (mlast p a) b.
Proof.
  induction a as [|c a IH]; intros p b; [reflexivity|]. cbn [app marked]. cbv zeta. rewrite IH. cbn [app]. f_equal.
Qed.
Lemma marked_length : forall cs p, length (marked p cs) = length cs.
Proof. induction cs as [|c t IH]; intros p; [reflexivity|]. cbn. rewrite IH. reflexivity. Qed.
Lemma mlast_app a b p : mlast p (a ++ b) = mlast (mlast p a) b.
Proof. apply fold_left_app. Qed.
Lemma chars_of_app a b p : chars_of p (a ++ b) = chars_of p a ++ chars_of (mlast p (map fst a)) b.
Proof.
  unfold chars_of. rewrite !map_app, marked_app, map_app.
  assert (X : forall (A B : Type) (u u' : list A) (v v' : list B), length u = length v -> combine (u ++ u') (v ++ v') = combine u v ++ combine u' v').
  { clear. induction u as [|x u IH]; intros u' [|y v] v' E; try discriminate E; [reflexivity|]. cbn. rewrite IH; auto. }
  apply X. rewrite map_length, marked_length, !map_length. reflexivity.
Qed.

(* [prev]: as the scanner has it; [pv]: as in rule W1. *)
Definition same_prev (prev pv : Z) : Prop := mark_of prev = pv \/ mark_of prev = cNI /\ pv = cON.
Lemma same_norm prev pv : same_prev prev pv -> norm (mark_of prev) = norm pv.
Proof. intros [-> |[-> ->]]; reflexivity. Qed.
Lemma mark_raw c : In c (cNI :: raw9) -> mark_of c = c.
Proof. intros [<-|I]; [reflexivity|]. cases9 I; reflexivity. Qed.
(* The next one. *)
Lemma same_next prev pv c : same_prev prev pv -> In pv raw9 -> In c (cNSM :: raw9) ->
  let k := if c =? cNSM then pv else c in In k raw9 /\ same_prev (class_of prev c) k /\ norm (class_of prev c) = norm k /\
  (class_of prev c = k \/ class_of prev c = cNI /\ k = cON).
Proof.
  intros S P C. cbv zeta. unfold class_of. destruct (Z.eqb_spec c cNSM) as [->|N].
  - split; auto. split; [|split; [apply same_norm, S|exact S]]. unfold same_prev. rewrite mark_raw; [exact S|].
    destruct S as [-> |[-> _]]; [right; exact P|left; reflexivity].
  - pose proof (in_raw2 c C N) as R. split; auto. split; [|auto]. left. apply mark_raw. right. exact R.
Qed.

Lemma settle_chars it : forall ok prev pv, shaped ok it = true -> In pv raw9 -> same_prev prev pv ->
  chars_of prev (flat it) = flat (fst (settle pv it)) /\ same_prev (mlast prev (map fst (flat it))) (snd (settle pv it)).
Proof.
  induction it as [c n|c n content m IH] using item_ind2; intros ok prev pv H P S.
  - cbn [flat settle fst snd map]. destruct (same_next prev pv c S P (in_raw _ H)) as (_ & A & B & _). unfold chars_of. cbn [map fst snd marked combine]. cbv zeta.
    rewrite B. split; [reflexivity|]. exact A.
  - rewrite settle_iso. cbn [fst snd]. cbn [shaped] in H. apply andb_true_iff in H. destruct H as [H1 H2].
    apply andb_true_iff in H1. destruct H1 as [_ H1]. apply orb_true_iff in H1. rewrite !Z.eqb_eq in H1.
    assert (C : class_of prev c = c /\ norm c = c /\ same_prev c (inner_dir c)).
    { destruct H1 as [-> | ->]; (split; [reflexivity|split; [reflexivity|left; reflexivity]]). }
    destruct C as (C1 & C2 & C3).
    assert (IN : forall prev pv, In pv raw9 -> same_prev prev pv -> chars_of prev (flat_map flat content) = flat_map flat (settles pv content)).
    { clear - IH H2. intros prev pv P S. revert prev pv P S. induction IH as [|x t H _ IHt]; intros prev pv P S; [reflexivity|].
      cbn [forallb] in H2. apply andb_true_iff in H2. destruct H2 as [H2 H3]. cbn [flat_map settles]. rewrite chars_of_app.
      destruct (H _ prev pv H2 P S) as [-> B]. f_equal. apply IHt; auto. apply (settle_sound x _ pv H2 P). }
    cbn [flat]. change ((c, n) :: flat_map flat content ++ [(cPDI, m)]) with ([(c, n)] ++ flat_map flat content ++ [(cPDI, m)]).
    rewrite !chars_of_app. rewrite !map_app, !mlast_app.
    assert (L1 : mlast prev (map fst [(c, n)]) = c) by (cbn; exact C1). rewrite L1.
    rewrite (IN c (inner_dir c) (proj1 (dir_raw c)) C3). split.
    + unfold chars_of. cbn [map fst snd marked combine app]. cbv zeta. rewrite C1, C2. unfold class_of. cbn. reflexivity.
    + right. cbn. auto.
Qed.
Lemma settles_chars ok : forall l prev pv, forallb (shaped ok) l = true -> In pv raw9 -> same_prev prev pv ->
  chars_of prev (flat_map flat l) = flat_map flat (settles pv l).
Proof.
  induction l as [|x t IH]; intros prev pv H P S; [reflexivity|]. cbn [forallb] in H. apply andb_true_iff in H. destruct H as [H1 H2].
  cbn [flat_map settles]. rewrite chars_of_app. destruct (settle_chars x ok prev pv H1 P S) as [-> B]. f_equal. apply IH; auto.
  apply (settle_sound x _ pv H1 P).
Qed.

(* ---- numbers ---- *)
(* A property of the content of every isolate. *)
Inductive deep (P : Z -> list item -> Prop) : item -> Prop :=
| deep_char c n : deep P (Char c n)
| deep_iso c n content m : P (inner_dir c) content -> Forall (deep P) content -> deep P (Isolate c n content m).
Definition enl_level (e : Z) (its : list item) : Prop := enl e (W1 e (sequence its)).
Definition known (st s : Z) : Prop := st = s \/ st = cAL \/ st = cNI.
Definition next_strong (s pv : Z) (it : item) : Z :=
  match it with Char c _ => let k := if c =? cNSM then pv else c in if is_strong k then k else s | Isolate _ _ _ _ => s end.

Lemma known_next st s k kq : known st s -> In k raw9 -> (kq = k \/ kq = cNI /\ k = cON) -> known (strong_next true st kq) (if is_strong k then k else s).
Proof.
  unfold known. intros K I [-> |[-> ->]].
  - destruct K as [-> |[-> | ->]]; [|right; left; reflexivity|].
    + unfold strong_next. destruct (Z.eqb_spec s cAL) as [->|_]; [right; left; reflexivity|]. cases9 I; cbn; auto.
    + cases9 I; cbn; auto.
  - destruct K as [-> |[-> | ->]]; [|right; left; reflexivity|right; right; reflexivity].
    unfold strong_next. destruct (Z.eqb_spec s cAL) as [->|_]; [right; left; reflexivity|]. left. reflexivity.
Qed.

Lemma quiet_list_from l : Forall (fun it => forall ok st prev s pv rest, shaped ok it = true -> In pv raw9 -> same_prev prev pv -> known st s ->
    quiet true st prev (map fst (flat it) ++ rest) = true ->
    deep enl_level it /\ (forall c n, it = Char c n -> (if c =? cNSM then pv else c) = cEN -> s = cL) /\
    exists st' prev', quiet true st' prev' rest = true /\ same_prev prev' (snd (settle pv it)) /\ known st' (next_strong s pv it)) l ->
  forall ok st prev s pv rest, forallb (shaped ok) l = true -> In pv raw9 -> same_prev prev pv -> known st s ->
  quiet true st prev (map fst (flat_map flat l) ++ rest) = true ->
  Forall (deep enl_level) l /\ enl s (W1 pv (sequence l)) /\ exists st' prev', quiet true st' prev' rest = true.
Proof.
  induction 1 as [|it t H _ IH]; intros ok st prev s pv rest SH P S K Q.
  { split; [constructor|]. split; [exact I|]. exists st, prev. exact Q. }
  cbn [forallb] in SH. apply andb_true_iff in SH. destruct SH as [SH1 SH2]. cbn [flat_map] in Q. rewrite map_app, <- app_assoc in Q.
  destruct (H ok st prev s pv _ SH1 P S K Q) as (D & EN & st' & prev' & Q' & S' & K').
  destruct (settle_sound it ok pv SH1 P) as [_ P'].
  destruct (IH ok st' prev' (next_strong s pv it) (snd (settle pv it)) rest SH2 P' S' K' Q') as (A & B & C).
  split; [constructor; auto|]. split; [|exact C]. destruct it as [c n|c n content m].
  - cbn [sequence flat_map app W1 enl]. fold (sequence t). cbv zeta. split; [apply (EN c n eq_refl)|]. exact B.
  - cbn [sequence flat_map app W1 enl]. fold (sequence t). cbv zeta. split; [discriminate|]. split; [discriminate|]. exact B.
Qed.

Lemma quiet_item it : forall ok st prev s pv rest, shaped ok it = true -> In pv raw9 -> same_prev prev pv -> known st s ->
  quiet true st prev (map fst (flat it) ++ rest) = true ->
  deep enl_level it /\ (forall c n, it = Char c n -> (if c =? cNSM then pv else c) = cEN -> s = cL) /\
  exists st' prev', quiet true st' prev' rest = true /\ same_prev prev' (snd (settle pv it)) /\ known st' (next_strong s pv it).
Proof.
  induction it as [c n|c n content m IH] using item_ind2; intros ok st prev s pv rest SH P S K Q.
  - cbn [flat map fst app] in Q. destruct (quiet_cons _ _ _ _ _ Q) as (Q1 & _ & _ & Q2). cbv zeta in *.
    destruct (same_next prev pv c S P (in_raw _ SH)) as (P' & S' & _ & KK). cbv zeta in *. split; [constructor|]. split.
    + intros c' n' E E'. injection E as <- <-. destruct KK as [KK|[_ KK]]; [|rewrite KK in E'; discriminate E'].
      assert (ST : st = cL) by (apply Q1; congruence). destruct K as [K|[K|K]]; [congruence|rewrite K in ST; discriminate ST|rewrite K in ST; discriminate ST].
    + eexists _, _. split; [exact Q2|]. split; [exact S'|]. cbn [next_strong]. apply known_next; auto.
  - cbn [shaped] in SH. apply andb_true_iff in SH. destruct SH as [H1 H2]. apply andb_true_iff in H1. destruct H1 as [_ H1]. apply orb_true_iff in H1. rewrite !Z.eqb_eq in H1.
    assert (C : class_of prev c = c /\ same_prev c (inner_dir c) /\ known (strong_next true st c) (inner_dir c)).
    { unfold known, strong_next. destruct H1 as [-> | ->]; (split; [reflexivity|split; [left; reflexivity|]]); destruct (Z.eqb_spec st cAL); cbn; auto. }
    destruct C as (C1 & C2 & C3). cbn [flat map fst app] in Q. rewrite map_app, <- app_assoc in Q. cbn [map fst app] in Q.
    destruct (quiet_cons _ _ _ _ _ Q) as (_ & _ & _ & Q2). rewrite C1 in Q2.
    destruct (quiet_list_from content IH _ _ _ _ _ _ H2 (proj1 (dir_raw c)) C2 C3 Q2) as (A & B & st' & prev' & Q3).
    split; [constructor; auto|]. split; [discriminate|].
    destruct (quiet_cons _ _ _ _ _ Q3) as (_ & _ & _ & Q4). change (class_of prev' cPDI) with cPDI in Q4. eexists _, _. split; [exact Q4|].
    rewrite settle_iso. split; [right; split; reflexivity|]. unfold known, strong_next. destruct (Z.eqb_spec st' cAL); cbn; auto.
Qed.
Lemma quiet_list l ok st prev s pv : forallb (shaped ok) l = true -> In pv raw9 -> same_prev prev pv -> known st s ->
  quiet true st prev (map fst (flat_map flat l)) = true -> Forall (deep enl_level) l /\ enl s (W1 pv (sequence l)).
Proof.
  intros SH P S K Q. destruct (quiet_list_from l) with (ok := ok) (st := st) (prev := prev) (s := s) (pv := pv) (rest := @nil Z) as (A & B & _); auto.
  - apply Forall_forall. intros it _. apply quiet_item.
  - rewrite app_nil_r. exact Q.
Qed.

(* ---- the rules in one pass ---- *)
Lemma uax9_fc2 e cs : e = cL \/ e = cR -> Forall (fun c => In c raw9) (W1 e cs) -> enl e (W1 e cs) -> uax9 e cs = fc e false e (map norm (W1 e cs)).
Proof.
  intros E F1 EL. unfold uax9. rewrite (W2_id _ _ EL).
  pose proof (enl_W3 _ _ F1 EL) as E3. pose proof (mid_W3 _ F1) as F3.
  assert (EE : (if e =? cAL then cR else e) = e) by (destruct E as [-> | ->]; reflexivity). rewrite EE in E3.
  set (x := W3 (W1 e cs)) in *.
  rewrite (W67 (W5 e (W4 e x)) e) by (apply enl_W45; auto; destruct E as [-> | ->]; discriminate).
  rewrite (fc_W45 e x e e e F3) by (destruct E as [-> | ->]; discriminate || auto).
  replace (e =? cEN) with false by (destruct E as [-> | ->]; reflexivity). f_equal.
  unfold x, W3. rewrite map_map. apply map_ext. intros c. apply norm_W3.
Qed.
Lemma sequence_raw ok l : forallb (shaped ok) l = true -> Forall (fun c => In c (cNSM :: raw9)) (sequence l).
Proof.
  induction l as [|[c n|c n content m] t IH]; intros H; [constructor| |]; cbn [forallb] in H; apply andb_true_iff in H; destruct H as [H1 H2];
    cbn [sequence flat_map app]; fold (sequence t).
  - constructor; [apply in_raw, H1|auto].
  - constructor; [cbn; auto 12|]. constructor; [cbn; auto 12|auto].
Qed.

Fixpoint paired (rs : list Z) (its : list item) : Prop :=
  match its with
  | [] => True
  | Char _ _ :: t => paired (tl rs) t
  | Isolate _ _ _ _ :: t => hd cNULL rs = hd cNULL (tl rs) /\ paired (tl (tl rs)) t
  end.

Lemma ahead_entries e : forall its pv, ahead e (map fst (entries pv its)) = ahead e (map norm (W1 pv (sequence its))).
Proof.
  induction its as [|[c n|c n content m] t IH]; intros pv; [reflexivity| |]; cbn [entries sequence flat_map app W1 map fst]; fold (sequence t); cbv zeta.
  - cbn [ahead]. rewrite IH. reflexivity.
  - change (ahead e (map fst (entries cON t)) = ahead e (map norm (W1 cON (sequence t)))). apply IH.
Qed.
Lemma en_entries : forall its pv, en_ahead (map fst (entries pv its)) = en_ahead (map norm (W1 pv (sequence its))).
Proof.
  induction its as [|[c n|c n content m] t IH]; intros pv; [reflexivity| |]; cbn [entries sequence flat_map app W1 map fst]; fold (sequence t); cbv zeta.
  - cbn [en_ahead]. rewrite IH. reflexivity.
  - reflexivity.
Qed.

Lemma paint_fc e : forall its q p pv,
  fcP e q p (map natp (entries pv its)) = paint (fc e q p (map norm (W1 pv (sequence its)))) its /\
  paired (fc e q p (map norm (W1 pv (sequence its)))) its.
Proof.
  assert (C : forall l, cls (map natp l) = map fst l) by (intros; unfold cls; rewrite map_map; reflexivity).
  induction its as [|[c n|c n content m] t IH]; intros q p pv; [split; [reflexivity|exact I]| |];
    cbn [entries sequence flat_map app W1 map fst]; fold (sequence t); cbv zeta.
  - set (k := if c =? cNSM then pv else c). unfold natp at 1. cbn [fst snd fcP fc]. rewrite C. unfold number. rewrite en_entries, ahead_entries.
    destruct ((norm k =? cEN) || (norm k =? cET) && (q || en_ahead (map norm (W1 k (sequence t))))); [|destruct ((norm k =? cL) || (norm k =? cR))];
      cbn [paint paired hd tl]; (split; [f_equal; apply IH|apply IH]).
  - unfold natp at 1. cbn [fst snd fcP]. rewrite C. change (number q cLRI (map fst (entries cON t))) with false.
    change ((cLRI =? cL) || (cLRI =? cR)) with false. cbv iota. rewrite ahead_entries. change (norm cON) with cNI.
    set (X := map norm (W1 cON (sequence t))).
    change (fc e q p (cNI :: cNI :: X)) with ((if p =? ahead e X then p else e) :: (if p =? ahead e X then p else e) :: fc e false p X).
    cbn [paint paired hd tl]. split; [f_equal; apply IH|]. split; [reflexivity|apply IH].
Qed.

(* ---- lengths ---- *)
Lemma weave_length : forall its rs, Forall pos_it its -> Forall (fun it => forall c n content m, it = Isolate c n content m -> length (inside_of it) = Z.to_nat (widths content)) its ->
  length (weave rs (combine its (map inside_of its))) = Z.to_nat (widths its).
Proof.
  induction its as [|it t IH]; intros rs P L; [reflexivity|]. inversion P as [|? ? P1 P2]; subst. inversion L as [|? ? L1 L2]; subst.
  rewrite widths_cons. assert (W : 0 <= widths t) by (apply sum_pos; rewrite Forall_flat_map; exact P2).
  assert (W1' : 0 <= width it) by (apply sum_pos; exact P1).
  cbn [map combine]. destruct it as [c n|c n content m]; cbn [weave].
  - rewrite app_length, repeat_length, IH by auto. rewrite Z2Nat.inj_add by auto. f_equal. unfold width. cbn. lia.
  - rewrite !app_length, !repeat_length, IH, (L1 _ _ _ _ eq_refl) by auto. rewrite width_iso. destruct (pos_iso _ _ _ _ P1) as (A & _ & B & D). lia.
Qed.
Lemma inside_length it : pos_it it -> forall c n content m, it = Isolate c n content m -> length (inside_of it) = Z.to_nat (widths content).
Proof.
  induction it as [c n|c n content m IH] using item_ind2; intros P c' n' content' m' E; [discriminate E|]. injection E as <- <- <- <-.
  cbn [inside_of]. destruct (pos_iso _ _ _ _ P) as (_ & PC & _). apply weave_length; auto.
  rewrite Forall_forall in *. intros x I. apply (IH x I), PC, I.
Qed.
Lemma uax9_iso_length e its : Forall pos_it its -> length (uax9_iso e its) = Z.to_nat (widths its).
Proof. intros P. apply weave_length; auto. eapply Forall_impl; [|exact P]. apply inside_length. Qed.

(* ---- what the bytes should get ---- *)
Section Target.
Context (G : Z -> Z).
Notation good := (good G).
Definition agrees (lo : Z) (l : list Z) : Prop := forall k c, nth_error l k = Some c -> G (lo + Z.of_nat k) = c.
Lemma agrees_app lo a b : agrees lo (a ++ b) -> agrees lo a /\ agrees (lo + Z.of_nat (length a)) b.
Proof.
  intros H. split.
  - intros k c E. apply H. rewrite nth_error_app1; auto. apply nth_error_Some. congruence.
  - intros k c E. specialize (H (length a + k)%nat c). rewrite nth_error_app2 in H by lia. replace (length a + k - length a)%nat with k in H by lia.
    rewrite <- (H E). f_equal. lia.
Qed.
Lemma good_app lo a b h1 h2 : good lo a h1 -> good (lo + Z.of_nat (length a)) b h2 -> good lo (a ++ b) (h1 ++ h2).
Proof.
  intros A B k c E. destruct (Nat.lt_ge_cases k (length a)) as [L|L].
  - rewrite nth_error_app1 in E by auto. destruct (A k c E) as [(h & I & X)|X]; [left; exists h; split; [apply in_or_app; auto|exact X]|right; exact X].
  - rewrite nth_error_app2 in E by auto. specialize (B _ _ E). replace (lo + Z.of_nat (length a) + Z.of_nat (k - length a)) with (lo + Z.of_nat k) in B by lia.
    destruct B as [(h & I & X)|X]; [left; exists h; split; [apply in_or_app; auto|exact X]|right; exact X].
Qed.

Fixpoint level_holes (lo : Z) (its : list item) : list (Z * Z) :=
  match its with
  | [] => []
  | Char _ n :: t => level_holes (lo + n) t
  | (Isolate _ n content _ as it) :: t => (lo + n, lo + n + widths content) :: level_holes (lo + width it) t
  end.

Lemma weave_good : forall its rs lo, Forall pos_it its -> agrees lo (weave rs (combine its (map inside_of its))) -> paired rs its -> good lo (paint rs its) (level_holes lo its).
Proof.
  induction its as [|it t IH]; intros rs lo P A PR; [intros [|k] c E; discriminate E|]. inversion P as [|? ? P1 P2]; subst.
  cbn [map combine] in A. destruct it as [c n|c n content m].
  - cbn [weave paint level_holes paired] in *. apply agrees_app in A. destruct A as [A1 A2]. rewrite repeat_length in A2.
    assert (N : 0 <= n) by (unfold pos_it in P1; inversion P1; auto). rewrite Z2Nat.id in A2 by auto.
    apply (good_app lo _ _ [] (level_holes (lo + n) t)).
    + intros k d E. right. apply A1, E.
    + rewrite repeat_length, Z2Nat.id by auto. apply IH; auto.
  - cbn [weave paint level_holes paired] in *. destruct PR as [EQ PR]. destruct (pos_iso _ _ _ _ P1) as (N & PC & M & W).
    apply agrees_app in A. destruct A as [A1 A2]. apply agrees_app in A2. destruct A2 as [A2 A3]. apply agrees_app in A3. destruct A3 as [A3 A4].
    rewrite !repeat_length, (inside_length _ P1 c n content m eq_refl) in *. rewrite !Z2Nat.id in * by auto.
    pose proof (width_iso c n content m) as WI. set (it := Isolate c n content m) in *.
    change ((lo + n, lo + n + widths content) :: level_holes (lo + width it) t) with ([(lo + n, lo + n + widths content)] ++ level_holes (lo + width it) t).
    apply good_app.
    + intros k d E. assert (L : (k < Z.to_nat (width it))%nat) by (rewrite <- (repeat_length (hd cNULL rs) (Z.to_nat (width it))); apply nth_error_Some; congruence).
      rewrite (nth_error_repeat _ L) in E. injection E as <-.
      destruct (Z_lt_ge_dec (Z.of_nat k) n) as [L1|L1].
      { right. apply A1. apply nth_error_repeat. lia. }
      destruct (Z_lt_ge_dec (Z.of_nat k) (n + widths content)) as [L2|L2].
      { left. eexists. split; [left; reflexivity|]. unfold in_hole. cbn [fst snd]. lia. }
      right. specialize (A3 (k - Z.to_nat (n + widths content))%nat (hd cNULL (tl rs))). rewrite EQ. rewrite <- A3; [f_equal; lia|]. apply nth_error_repeat. lia.
    + rewrite repeat_length, Z2Nat.id by (rewrite WI; lia). apply IH; auto. replace (lo + width it) with (lo + n + widths content + m) by lia. exact A4.
Qed.

(* ---- all levels of a text ---- *)
Inductive fine (R : list (Z * Z) -> list (Z * Z)) : Z -> Z -> list item -> Prop :=
| fine_nil e lo : fine R e lo []
| fine_char e lo c n t : In c run9 -> fine R e (lo + n) t -> fine R e lo (Char c n :: t)
| fine_iso lo c n content m t : c = cLRI \/ c = cRLI -> fine R (inner_dir c) (lo + n) content ->
    chk (inner_dir c) false (inner_dir c) false 1 (map fst (R (map entry content))) = true ->
    good (lo + n) (fcP (inner_dir c) false (inner_dir c) (map natp (R (map entry content)))) (level_holes (lo + n) content) ->
    fine R cL (lo + width (Isolate c n content m)) t -> fine R cL lo (Isolate c n content m :: t).

Lemma settles_holes : forall l pv lo, level_holes lo (settles pv l) = level_holes lo l.
Proof.
  induction l as [|[c n|c n content m] t IH]; intros pv lo; [reflexivity| |].
  - cbn [settles settle fst snd level_holes]. apply IH.
  - cbn [settles]. pose proof (settle_width (Isolate c n content m) pv) as W. rewrite settle_iso in *. cbn [fst snd level_holes] in *. rewrite IH, W.
    rewrite !width_iso in W. assert (WC : widths (settles (inner_dir c) content) = widths content) by lia. rewrite WC. reflexivity.
Qed.

Lemma tidy_chk2 e cs : tidy_runs e false e false cs = true -> chk e false e false 1 cs = true.
Proof.
  assert (Z0 : forall cs q p g, tidy_runs e q p g cs = chk e q p g 0 cs).
  { clear cs. induction cs as [|c t IH]; intros q p g; [reflexivity|]. cbn [tidy_runs chk pred Nat.eqb andb]. rewrite !IH. reflexivity. }
  rewrite Z0. destruct cs as [|c t]; [auto|]. cbn [chk pred]. auto.
Qed.

Lemma entries_pos : forall its pv, Forall pos_it its -> Forall (fun x => 0 <= snd x) (entries pv its).
Proof.
  induction its as [|it t IH]; intros pv P; [constructor|]. inversion P as [|? ? P1 P2]; subst. destruct it as [c n|c n content m]; cbn [entries].
  - constructor; [|auto]. unfold pos_it in P1. inversion P1; auto.
  - constructor; [|auto]. apply sum_pos. exact P1.
Qed.

(* One level. *)
Lemma level_around ok e its : e = cL \/ e = cR -> Forall pos_it its -> forallb (shaped ok) its = true -> enl_level e its ->
  fcP e false e (map natp (runs_of solo_class (entries e its))) = uax9_around e its.
Proof.
  intros E P SH EN. rewrite fcP_runs2 by (apply entries_pos, P). destruct (paint_fc e its false e e) as [-> _]. unfold uax9_around.
  assert (RE : In e raw9) by (destruct E as [-> | ->]; cbn; auto).
  rewrite uax9_fc2; auto. apply W1_classes; auto. eapply sequence_raw, SH.
Qed.
Lemma level_fine ok e lo its : e = cL \/ e = cR -> Forall pos_it its -> forallb (shaped ok) its = true -> enl_level e its -> tidy_level e its = true ->
  agrees lo (uax9_iso e its) ->
  chk e false e false 1 (map fst (runs_of solo_class (entries e its))) = true /\
  good lo (fcP e false e (map natp (runs_of solo_class (entries e its)))) (level_holes lo its).
Proof.
  intros E P SH EN TI A. split; [apply tidy_chk2, TI|]. rewrite fcP_runs2 by (apply entries_pos, P).
  destruct (paint_fc e its false e e) as [-> PR]. unfold uax9_iso in A.
  assert (RE : In e raw9) by (destruct E as [-> | ->]; cbn; auto).
  rewrite uax9_fc2 in A; auto; [apply weave_good; auto|]. apply W1_classes; auto. eapply sequence_raw, SH.
Qed.

Lemma fine_list_from l : Forall (fun it => forall ok lo, shaped ok it = true -> pos_it it -> deep enl_level it -> tidy_in it = true ->
    forall c n content m, it = Isolate c n content m -> agrees (lo + n) (inside_of it) -> fine (runs_of solo_class) (inner_dir c) (lo + n) (settles (inner_dir c) content)) l ->
  forall ok e lo rs pv, forallb (shaped ok) l = true -> (ok = true -> e = cL) -> Forall pos_it l -> Forall (deep enl_level) l -> forallb tidy_in l = true -> In pv raw9 ->
  agrees lo (weave rs (combine l (map inside_of l))) -> fine (runs_of solo_class) e lo (settles pv l).
Proof.
  induction 1 as [|it t H _ IH]; intros ok e lo rs pv SH OK P D T PV A; [constructor|].
  cbn [forallb] in SH, T. apply andb_true_iff in SH, T. destruct SH as [SH1 SH2]. destruct T as [T1 T2].
  inversion P as [|? ? P1 P2]; subst. inversion D as [|? ? D1 D2]; subst. cbn [map combine] in A. destruct (settle_sound it ok pv SH1 PV) as [_ PV'].
  destruct it as [c n|c n content m].
  - cbn [settles settle fst snd] in *. cbn [weave] in A. apply agrees_app in A. destruct A as [_ A]. rewrite repeat_length in A.
    assert (N : 0 <= n) by (unfold pos_it in P1; inversion P1; auto). rewrite Z2Nat.id in A by auto.
    constructor; [apply raw_run, PV'|]. apply (IH ok _ _ (tl rs)); auto.
  - cbn [settles]. pose proof (settle_width (Isolate c n content m) pv) as W. rewrite settle_iso in *. cbn [fst snd] in *.
    destruct (pos_iso _ _ _ _ P1) as (N & PC & M & WC). pose proof (width_iso c n content m) as WI.
    cbn [weave] in A. apply agrees_app in A. destruct A as [_ A]. apply agrees_app in A. destruct A as [A1 A]. apply agrees_app in A. destruct A as [_ A].
    rewrite !repeat_length, (inside_length _ P1 c n content m eq_refl) in *. rewrite !Z2Nat.id in * by auto.
    assert (EL : e = cL /\ (c = cLRI \/ c = cRLI) /\ forallb (shaped (c =? cLRI)) content = true).
    { cbn [shaped] in SH1. apply andb_true_iff in SH1. destruct SH1 as [X1 X2]. apply andb_true_iff in X1. destruct X1 as [X1 X3]. apply orb_true_iff in X3.
      rewrite !Z.eqb_eq in X3. auto. }
    destruct EL as (-> & EC & SHC). inversion D1 as [|? ? ? ? D3 D4]; subst.
    cbn [tidy_in] in T1. pose proof T1 as T1'. apply andb_true_iff in T1. destruct T1 as [T1 _].
    destruct (level_fine _ (inner_dir c) (lo + n) content (proj2 (dir_raw c)) PC SHC D3 T1 A1) as [CH GO].
    constructor; auto.
    + apply (H ok lo SH1 P1 D1 T1' c n content m eq_refl A1).
    + rewrite settles_entries. exact CH.
    + rewrite settles_entries, settles_holes. exact GO.
    + rewrite W. apply (IH ok _ _ (tl (tl rs))); auto. replace (lo + width (Isolate c n content m)) with (lo + n + widths content + m) by lia. exact A.
Qed.

Lemma fine_item it : forall ok lo, shaped ok it = true -> pos_it it -> deep enl_level it -> tidy_in it = true ->
  forall c n content m, it = Isolate c n content m -> agrees (lo + n) (inside_of it) -> fine (runs_of solo_class) (inner_dir c) (lo + n) (settles (inner_dir c) content).
Proof.
  induction it as [c n|c n content m IH] using item_ind2; intros ok lo SH P D T c' n' content' m' E A; [discriminate E|]. injection E as <- <- <- <-.
  cbn [shaped] in SH. apply andb_true_iff in SH. destruct SH as [X1 X2]. apply andb_true_iff in X1. destruct X1 as [X1 X3].
  cbn [tidy_in] in T. apply andb_true_iff in T. destruct T as [_ T]. inversion D; subst. destruct (pos_iso _ _ _ _ P) as (_ & PC & _).
  cbn [inside_of] in A.
  apply (fine_list_from content IH (c =? cLRI) _ _ _ _ X2) with (4 := T) (6 := A); auto; [|apply dir_raw].
  intros Y. apply Z.eqb_eq in Y. subst c. reflexivity.
Qed.
Lemma fine_list l ok e lo : forallb (shaped ok) l = true -> (ok = true -> e = cL) -> e = cL \/ e = cR -> Forall pos_it l -> Forall (deep enl_level) l -> forallb tidy_in l = true ->
  agrees lo (uax9_iso e l) -> fine (runs_of solo_class) e lo (settles e l).
Proof.
  intros SH OK E P D T A. apply (fine_list_from l) with (ok := ok) (rs := uax9 e (sequence l)); auto.
  - apply Forall_forall. intros it _. apply fine_item.
  - destruct E as [-> | ->]; cbn; auto.
Qed.

(* ---- joining ---- *)
Lemma joins_holes : forall l, Forall sound l -> forall lo, level_holes lo (joins (map join l)) = level_holes lo l.
Proof.
  induction 1 as [|it t S ST IH]; intros lo; [reflexivity|]. pose proof (width_join it S) as W. destruct S as [c n S|c n content m S F].
  - cbn [map join joins level_holes]. rewrite <- IH. destruct (joins (map join t)) as [|[d k|d k l k'] u]; [reflexivity| |reflexivity].
    destruct (_ =? _); [|reflexivity]. cbn [level_holes]. rewrite Z.add_assoc. reflexivity.
  - change (joins (map join (Isolate c n content m :: t))) with (join (Isolate c n content m) :: joins (map join t)). cbn [join level_holes] in *.
    rewrite W, IH, widths_joins by auto. reflexivity.
Qed.
Lemma fine_joins e lo l : fine (runs_of solo_class) e lo l -> Forall sound l -> fine (fun x => x) e lo (joins (map join l)).
Proof.
  induction 1 as [e lo|e lo c n t IC F IH|lo c n content m t IC F1 IH1 CH GO F2 IH2]; intros S; [constructor| |]; inversion S as [|? ? S1 S2]; subst.
  - specialize (IH S2). cbn [map join joins]. destruct (joins (map join t)) as [|[d k|d k l k'] u]; [constructor; auto| |constructor; auto].
    destruct (Z.eqb_spec c d) as [<-|_]; [|constructor; auto]. inversion IH; subst. constructor; auto. rewrite Z.add_assoc. auto.
  - pose proof (width_join _ S1) as W. inversion S1 as [|? ? ? ? SC SF]; subst.
    change (joins (map join (Isolate c n content m :: t))) with (join (Isolate c n content m) :: joins (map join t)). cbn [join] in *. constructor; auto.
    + rewrite entries_joins by auto. exact CH.
    + rewrite entries_joins, joins_holes by auto. exact GO.
    + rewrite W. auto.
Qed.

(* ---- the scraps ---- *)
Lemma nesting_fine R e lo l : fine R e lo l -> forall stk r, nesting e stk (map fst (flat_map flat l) ++ r) = nesting e stk (map fst (flat_map flat l)) ++ nesting e stk r.
Proof.
  induction 1 as [e lo|e lo c n t IC F IH|lo c n content m t IC F1 IH1 CH GO F2 IH2]; intros stk r; [reflexivity| |].
  - cbn [flat_map flat app map fst nesting].
    assert (X : (c =? cLRI) = false /\ (c =? cRLI) = false /\ (c =? cFSI) = false /\ (c =? cPDI) = false)
      by (cbn [run9 In] in IC; repeat (destruct IC as [<-|IC]; [repeat split; reflexivity|]); contradiction IC).
    destruct X as (-> & -> & -> & ->). rewrite IH. reflexivity.
  - cbn [flat_map flat]. rewrite !map_app. cbn [map fst]. rewrite !map_app. cbn [map fst]. rewrite <- !app_comm_cons, <- !app_assoc. cbn [app].
    assert (X : forall u, nesting cL stk (c :: u) = inner_dir c :: nesting (inner_dir c) (cL :: stk) u) by (intros u; destruct IC as [-> | ->]; reflexivity).
    rewrite !X. rewrite !IH1. cbn [app]. rewrite <- app_assoc. f_equal. f_equal.
    assert (Y : forall u, nesting (inner_dir c) (cL :: stk) (cPDI :: u) = inner_dir c :: nesting cL stk u) by (intros u; reflexivity).
    rewrite !Y, IH2. reflexivity.
Qed.

Lemma tiles_sumz : forall ss lo hi, tiles lo ss hi -> sum (map snd (map srun ss)) = hi - lo.
Proof.
  induction ss as [|s t IH]; intros lo hi T; [cbn in T |- *; lia|]. destruct T as (T1 & T2 & T3). cbn [map srun snd fold_right]. rewrite (IH _ _ T3). lia.
Qed.

Lemma fine_views e lo l : fine (fun x => x) e lo l -> forall ss hi stk, map srun ss = flat_map flat l -> tiles lo ss hi ->
  map (fun s => edir (sctx s)) ss = nesting e stk (map fst (flat_map flat l)) -> Forall (fun s => kids s = []) ss ->
  views G e ss (map natp (map entry l)) (level_holes lo l).
Proof.
  induction 1 as [e lo|e lo c n t IC F IH|lo c n content m t IC F1 IH1 CH GO F2 IH2]; intros ss hi stk EQ T ED KI.
  - destruct ss; [|discriminate EQ]. constructor.
  - cbn [flat_map flat app] in EQ, ED. destruct ss as [|s ss]; [discriminate EQ|]. cbn [map] in EQ. injection EQ as E1 E2 E3.
    destruct T as (T1 & T2 & T3). inversion KI as [|? ? K1 K2]; subst. cbn [map fst] in ED. cbn [nesting] in ED.
    assert (X : (clz s =? cLRI) = false /\ (clz s =? cRLI) = false /\ (clz s =? cFSI) = false /\ (clz s =? cPDI) = false)
      by (clear - IC; cbn [run9 In] in IC; repeat (destruct IC as [<-|IC]; [repeat split; reflexivity|]); contradiction IC).
    destruct X as (X1 & X2 & X3 & X4). rewrite X1, X2, X3, X4 in ED. injection ED as ED1 ED2.
    assert (V : views G e (s :: ss) (view s :: map natp (map entry t)) (map hole (kids s) ++ level_holes (sl s + (sr s - sl s)) t)).
    { constructor.
      - split; [unfold isisolate; rewrite X1, X2, X3, X4; reflexivity|]. split; auto. split; auto. rewrite K1. constructor.
      - eapply IH; eauto. replace (sl s + (sr s - sl s)) with (sr s) by lia. exact T3. }
    rewrite K1 in V. exact V.
  - cbn [flat_map flat] in EQ, ED. rewrite <- app_comm_cons, <- app_assoc in EQ, ED. cbn [app] in EQ, ED. destruct ss as [|i ss]; [discriminate EQ|]. cbn [map] in EQ. injection EQ as E1 E2 E3.
    apply map_eq_app in E3. destruct E3 as (b & u & -> & EB & E3). destruct u as [|p v]; [discriminate E3|]. cbn [map] in E3. injection E3 as E4 E5 E6.
    destruct T as (T1 & T2 & T3). apply tiles_app in T3. destruct T3 as (k & T3 & T4 & T5 & T6).
    inversion KI as [|? ? K1 K2]; subst. apply Forall_app in K2. destruct K2 as [K2 K3]. inversion K3 as [|? ? K4 K5]; subst.
    pose proof (tiles_sumz _ _ _ T3) as SB. rewrite EB in SB. fold (widths content) in SB.
    pose proof (width_iso (clz i) (sr i - sl i) content (sr p - sl p)) as WI.
    cbn [map fst] in ED. rewrite map_app in ED. cbn [map fst] in ED. rewrite !map_app in ED. cbn [map] in ED.
    assert (X : forall u, nesting cL stk (clz i :: u) = inner_dir (clz i) :: nesting (inner_dir (clz i)) (cL :: stk) u) by (intros u; destruct IC as [-> | ->]; reflexivity).
    rewrite X, (nesting_fine _ _ _ _ F1) in ED. injection ED as ED0 ED. 
    assert (EDD : map (fun s => edir (sctx s)) b = nesting (inner_dir (clz i)) (cL :: stk) (map fst (flat_map flat content)) /\
      edir (sctx p) :: map (fun s => edir (sctx s)) v = nesting (inner_dir (clz i)) (cL :: stk) (cPDI :: map fst (flat_map flat t))).
    { assert (LN : forall cs e stk, length (nesting e stk cs) = length cs).
      { clear. induction cs as [|c cs IH]; intros e stk; [reflexivity|]. cbn [nesting length].
        destruct (c =? cLRI); [cbn [length]; rewrite IH; auto|]. destruct (c =? cRLI); [cbn [length]; rewrite IH; auto|]. destruct (c =? cFSI); [cbn [length]; rewrite IH; auto|].
        destruct (c =? cPDI); [destruct stk|]; cbn [length]; rewrite IH; auto. }
      assert (LE : length (map (fun s => edir (sctx s)) b) = length (nesting (inner_dir (clz i)) (cL :: stk) (map fst (flat_map flat content)))).
      { rewrite LN, !map_length, <- EB, map_length. reflexivity. }
      clear - ED LE. revert ED LE. generalize (map (fun s => edir (sctx s)) b) as A, (nesting (inner_dir (clz i)) (cL :: stk) (map fst (flat_map flat content))) as B.
      induction A as [|x A IH]; intros [|y B] E L; try discriminate L; [split; [reflexivity|exact E]|]. cbn [app] in E. injection E as <- E.
      destruct (IH B E ltac:(cbn in L; lia)) as [-> H]. split; auto. }
    destruct EDD as [EDB EDV]. cbn [nesting] in EDV. change (cPDI =? cLRI) with false in EDV. change (cPDI =? cRLI) with false in EDV. change (cPDI =? cFSI) with false in EDV.
    change (cPDI =? cPDI) with true in EDV. cbv iota in EDV. injection EDV as _ EDV.
    assert (T3' : tiles (sl i + (sr i - sl i)) b (sl p)) by (replace (sl i + (sr i - sl i)) with (sr i) by lia; exact T3).
    pose proof (IH1 b (sl p) (cL :: stk) EB T3' EDB K2) as VB.
    assert (VT : views G cL v (map natp (map entry t)) (level_holes (sl i + width (Isolate (clz i) (sr i - sl i) content (sr p - sl p))) t)).
    { apply (IH2 v hi stk); auto. replace (sl i + _) with (sr p) by lia. exact T6. }
    cbn [map entry level_holes]. unfold natp at 1. cbn [fst snd].
    replace (Z.to_nat (width (Isolate (clz i) (sr i - sl i) content (sr p - sl p)))) with (Z.to_nat (sr p - sl i)) by (f_equal; lia).
    replace (sl i + (sr i - sl i) + widths content) with (sl p) by lia. replace (sl i + (sr i - sl i)) with (sr i) in * by lia.
    apply views_iso with (e' := inner_dir (clz i)) (vs' := map natp (map entry content)) (hs' := level_holes (sr i) content); auto.
    + unfold isinit, isisolate. destruct IC as [-> | ->]; reflexivity.
    + apply dir_raw.
    + unfold cls. rewrite map_map. exact CH.
Qed.
End Target.

(* ---- the resolved text ---- *)
Section Text.
Context (md : mode) (props : Z -> Z * Z) (upper : Z -> bool).
Notation eff := (eff md props upper).
Notation para := (para md props).
Notation classes := (classes_of md props upper).

Lemma scan_kids input r len rest ss : props_ok props -> lens_ok input -> total (para input) < 2 ^ 32 ->
  para input = (r, len) :: rest -> eff r <> cNSM -> quiet true cL cNULL (classes (para input)) = true ->
  Scan md props upper None input = Ok (ss ++ [stopper]) -> Forall (fun s => kids s = []) ss.
Proof.
  intros PO L B EP EF CA E.
  destruct (scan_from_start md props upper None (SCn md props upper true) (SQn true) (SRn true) input r len rest (SCn_preserved md props upper true PO) (SCn_exported md props upper true) PO) as (ss' & E' & _ & F & _); auto.
  { apply SCn_start; auto. discriminate. }
  rewrite E in E'. injection E' as E'. apply app_inj_tail in E'. destruct E' as [<- _]. eapply Forall_impl; [|exact F]. intros s (_ & _ & X & _). exact X.
Qed.

Lemma nth_ext {A} : forall a b : list A, (forall k, nth_error a k = nth_error b k) -> a = b.
Proof.
  induction a as [|x a IH]; intros [|y b] H; [reflexivity|discriminate (H 0%nat)|discriminate (H 0%nat)|].
  pose proof (H 0%nat) as H0. injection H0 as ->. f_equal. apply IH. intros k. apply (H (S k)).
Qed.
Lemma quiet_first c t prev : c <> cNSM -> c <> cAN -> quiet true cL cNULL (c :: t) = true -> quiet true cL prev (c :: t) = true.
Proof.
  intros N A H. cbn [quiet] in *. unfold class_of in *. apply Z.eqb_neq in N, A. rewrite N in *. rewrite A in *. cbn [andb negb] in *. exact H.
Qed.

Theorem resolve_uax9_iso input r len rest its n : props_ok props -> lens_ok input -> total (para input) < 2 ^ 32 ->
  para input = (r, len) :: rest -> eff r <> cNSM -> m_r2l md = false ->
  map (fun x => (eff (fst x), snd x)) (para input) = flat_map flat its ->
  forallb (shaped true) its = true -> tidy_items cL its = true ->
  quiet true cL cNULL (classes (para input)) = true ->
  apart (map fst (runs_of solo_class (chars2 md props upper cNULL (para input)))) = true ->
  roomy 0 (map fst (runs_of solo_class (chars2 md props upper cNULL (para input)))) = true ->
  (rounds (S (length input)) <= n)%nat ->
  exists lv, ResolveParagraph n md props upper None input = Ok (lv, []) /\
    resolved_tree md (total (para input)) (spots 0 (chars2 md props upper cNULL (para input))) lv /\
    map (class_at (lv_scraps lv)) (zrange 0 (total (para input))) = map Some (uax9_iso cL its) /\
    painted (lv_scraps lv) = uax9_around cL its /\ Forall (fun s => clz s = cL \/ clz s = cR \/ sl s = sr s) (lv_scraps lv).
Proof.
  intros PO L B EP EF LR TX SH TI CA AP RM FU. unfold ResolveParagraph. rewrite prepared. cbn [rbind].
  destruct (scan_quiet md props upper true input r len rest) as (ss & E & N & RS & MS & NN & LE); auto. rewrite E. cbn [rbind].
  destruct (ScanFinal_ok md props upper None input L B) as (st & -> & TM). cbn [rbind].
  assert (CZ : map clz ss = map fst (runs_of solo_class (chars2 md props upper cNULL (para input)))) by (rewrite <- RS, map_map; reflexivity).
  rewrite <- CZ in AP, RM. rewrite <- MS.
  pose proof (scan_kids input r len rest ss PO L B EP EF CA E) as KI.
  pose proof (scan_nesting md props upper input r len rest ss PO L EP EF E AP) as NS.
  assert (EO : outer md = cL) by (unfold outer; rewrite LR; reflexivity). rewrite EO in NS.
  (* the text *)
  assert (CF : classes (para input) = map fst (flat_map flat its)) by (rewrite <- TX, map_map; reflexivity).
  assert (SF : map snd (para input) = map snd (flat_map flat its)) by (rewrite <- TX, map_map; reflexivity).
  assert (PI : Forall pos_it its).
  { assert (X : Forall (fun x => 0 <= snd x) (flat_map flat its)).
    { apply (proj1 (Forall_map snd (fun x => 0 <= x) (flat_map flat its))). rewrite <- SF. apply Forall_map. apply para_lens, L. }
    rewrite Forall_flat_map in X. exact X. }
  assert (TOT : total (para input) = widths its).
  { unfold widths. rewrite <- SF. clear. induction (para input) as [|[a b] t IH]; [reflexivity|]. cbn [total map snd fold_right]. rewrite <- IH. reflexivity. }
  assert (HD : exists c t, map fst (flat_map flat its) = c :: t /\ c <> cNSM /\ c <> cAN).
  { rewrite <- CF. unfold classes_of. rewrite EP. cbn [map fst]. eexists _, _. split; [reflexivity|]. split; [exact EF|].
    destruct its as [|it its']; [rewrite EP in TX; discriminate TX|]. cbn [forallb] in SH. apply andb_true_iff in SH. destruct SH as [SH _].
    rewrite EP in TX. destruct it as [c k|c k ct m]; cbn [map fst snd flat_map flat app] in TX; injection TX as TX _ _; rewrite TX.
    - apply in_raw in SH. destruct SH as [<-|I]; [discriminate|]. cases9 I; discriminate.
    - cbn [shaped] in SH. apply andb_true_iff in SH. destruct SH as [SH _]. apply andb_true_iff in SH. destruct SH as [_ SH]. apply orb_true_iff in SH. rewrite !Z.eqb_eq in SH.
      destruct SH as [-> | ->]; discriminate. }
  destruct HD as (c0 & t0 & HD & HN & HA).
  assert (QU : quiet true cL cL (map fst (flat_map flat its)) = true) by (rewrite CF, HD in CA; rewrite HD; apply quiet_first; auto).
  assert (CH : chars2 md props upper cNULL (para input) = flat_map flat (settles cL its)).
  { rewrite <- (settles_chars true its cL cL SH); [|cbn; auto|left; reflexivity]. unfold chars2, chars_of. rewrite CF, SF. f_equal. rewrite HD. cbn [marked]. unfold class_of.
    apply Z.eqb_neq in HN. rewrite HN. reflexivity. }
  pose proof (settles_sound true its cL SH ltac:(cbn; auto)) as SO.
  destruct (quiet_list its true cL cL cL cL SH) as [DE EN]; [cbn; auto|left; reflexivity|left; reflexivity|exact QU|].
  (* the target *)
  set (target := uax9_iso cL its). set (G := fun x => nth (Z.to_nat x) target cNULL).
  assert (AG : agrees G 0 target).
  { intros k c E0. unfold G. cbn [Z.add]. rewrite Nat2Z.id. apply nth_error_nth, E0. }
  unfold tidy_items in TI. apply andb_true_iff in TI. destruct TI as [TI1 TI2].
  destruct (level_fine G true cL 0 its) as [CK GO]; auto.
  pose proof (fine_list G its true cL 0 SH ltac:(auto) ltac:(auto) PI DE TI2 AG) as FI. apply fine_joins in FI; auto.
  set (J := joins (map join (settles cL its))) in *.
  assert (FJ : map srun ss = flat_map flat J) by (rewrite RS, CH; unfold J; rewrite joins_flat2; auto).
  pose proof N as (_ & _ & T & _).
  assert (VW : views G cL ss (map natp (map entry J)) (level_holes 0 J)).
  { apply (fine_views G cL 0 J FI ss _ [] FJ T); [|exact KI]. rewrite NS. f_equal. rewrite <- FJ, map_map. reflexivity. }
  assert (EJ : map entry J = runs_of solo_class (entries cL its)) by (unfold J; rewrite entries_joins, settles_entries; auto).
  assert (HJ : level_holes 0 J = level_holes 0 its) by (unfold J; rewrite joins_holes, settles_holes; auto).
  rewrite EJ, HJ in VW.
  destruct (resolve_iso G findBracket changeBracket (SI true) (find_ok true) (change_ok true) md (total (para input)) ss stopper [] st n
    (map natp (runs_of solo_class (entries cL its))) (level_holes 0 its)) as (lv & E1 & R1 & CL & PT & LR2); auto.
  - rewrite EO. exact VW.
  - rewrite EO. unfold cls. rewrite map_map. exact CK.
  - rewrite EO. exact GO.
  - apply roomy_room1, RM.
  - apply tame_SI, TM.
  - assert ((rounds (length ss) <= rounds (S (length input)))%nat); [|lia]. unfold rounds. nia.
  - exists lv. split; auto. split; auto. split; [|split; [rewrite PT, EO; apply level_around with (ok := true); auto|exact LR2]].
    pose proof (uax9_iso_length cL its PI) as LT. fold target in LT. rewrite TOT in *.
    assert (W0 : 0 <= widths its) by (apply sum_pos; rewrite Forall_flat_map; exact PI).
    apply nth_ext. intros k. rewrite !nth_error_map. unfold zrange. rewrite nth_error_map. rewrite Z.sub_0_r.
    destruct (Nat.lt_ge_cases k (Z.to_nat (widths its))) as [LK|LK].
    + assert (X : nth_error (seq 0 (Z.to_nat (widths its))) k = Some k).
      { rewrite (nth_error_nth' _ 0%nat) by (rewrite seq_length; auto). rewrite seq_nth by auto. reflexivity. }
      rewrite X. cbn [option_map]. rewrite CL by lia. unfold G. cbn [Z.add]. rewrite Nat2Z.id.
      rewrite (nth_error_nth' target cNULL) by lia. reflexivity.
    + assert (X : nth_error (seq 0 (Z.to_nat (widths its))) k = None) by (apply nth_error_None; rewrite seq_length; auto).
      assert (Y : nth_error target k = None) by (apply nth_error_None; lia). rewrite X, Y. reflexivity.
Qed.
End Text.
