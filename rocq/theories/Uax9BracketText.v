(* Uax9BracketText.v -- texts with brackets: from the characters to the scraps, and to the resolved classes. *)
From Coq Require Import List ZArith Lia Bool.
From Verif Require Import SplitProofs Base Scrap Brackets Bd16Spec BracketProofs Trie Rules RuleProofs Reorder ReorderSpec ReorderProofs Scanner ScannerProofs Resolver ResolverProofs ResolverFlat ResolverText Uax9Spec Uax9N0Spec Uax9Proofs Uax9Resolve Uax9Text NestedText ScanContext BracketText Uax9Brackets.
Import ListNotations.
Open Scope Z_scope.

(* ---- runs ---- *)
Lemma runs_nil solo l : runs_of solo l = [] -> l = [].
Proof. destruct l as [|[c n] t]; [auto|]. destruct (runs_of_hd solo c n t) as (m & u & ->). discriminate. Qed.

Lemma runs_split solo : forall l A b n B, runs_of solo l = A ++ (b, n) :: B -> solo b = true ->
  exists l1 l2, l = l1 ++ (b, n) :: l2 /\ runs_of solo l1 = A /\ runs_of solo l2 = B.
Proof.
  induction l as [|[c k] t IH]; intros A b n B E S; [destruct A; discriminate E|]. cbn [runs_of] in E.
  destruct (runs_of solo t) as [|[d m] u] eqn:ET.
  - apply runs_nil in ET. subst t. destruct A as [|a A]; cbn [app] in E; [|destruct A; discriminate E]. injection E as -> -> <-.
    exists [], []. auto.
  - destruct ((c =? d) && negb (solo c)) eqn:EC.
    + apply andb_true_iff in EC. destruct EC as [EC SC]. apply Z.eqb_eq in EC. subst d. apply negb_true_iff in SC.
      destruct A as [|a A]; cbn [app] in E; [injection E as E1 E2 E3; subst; congruence|]. injection E as E1 E2. subst a u.
      destruct (IH ((c, m) :: A) b n B eq_refl S) as (l1 & l2 & -> & R1 & R2). exists ((c, k) :: l1), l2. split; [reflexivity|]. split; [|exact R2].
      cbn [runs_of]. rewrite R1, Z.eqb_refl, SC. reflexivity.
    + destruct A as [|a A]; cbn [app] in E.
      * injection E as -> -> <-. exists [], t. auto.
      * injection E as E1 E2. subst a. destruct (IH A b n B E2 S) as (l1 & l2 & -> & R1 & R2). exists ((c, k) :: l1), l2. split; [reflexivity|]. split; [|exact R2].
        cbn [runs_of]. rewrite R1. destruct A as [|a A]; [reflexivity|]. cbn [app] in E2. injection E2 as <- _. rewrite EC. reflexivity.
Qed.

Lemma runs_total solo : forall l, total (runs_of solo l) = total l.
Proof.
  induction l as [|[c n] t IH]; [reflexivity|]. cbn [runs_of]. change (total ((c, n) :: t)) with (n + total t). rewrite <- IH.
  destruct (runs_of solo t) as [|[d m] u]; [reflexivity|]. destruct (_ && _); cbn; lia.
Qed.
Lemma runs_existsb solo f : forall l, existsb f (map fst (runs_of solo l)) = existsb f (map fst l).
Proof.
  induction l as [|[c n] t IH]; [reflexivity|]. cbn [runs_of map fst existsb]. rewrite <- IH. destruct (runs_of solo t) as [|[d m] u]; [reflexivity|].
  destruct (Z.eqb_spec c d) as [->|N]; cbn [andb]; [|reflexivity]. destruct (solo d); cbn [negb map fst existsb]; [reflexivity|].
  rewrite orb_assoc, orb_diag. reflexivity.
Qed.
Lemma runs_last solo : forall l s, last_strong s (map fst (runs_of solo l)) = last_strong s (map fst l).
Proof.
  induction l as [|[c n] t IH]; intros s; [reflexivity|]. cbn [runs_of map fst]. unfold last_strong in *. cbn [fold_left]. rewrite <- IH.
  destruct (runs_of solo t) as [|[d m] u]; [reflexivity|].
  destruct (Z.eqb_spec c d) as [->|N]; cbn [andb]; [|reflexivity]. destruct (solo d); cbn [negb map fst fold_left]; [reflexivity|].
  f_equal. destruct (d =? cL); [reflexivity|]. destruct (d =? cR); reflexivity.
Qed.
(* Neighbours are different unless they are solo. *)
Lemma runs_apart solo : forall l a c n m b, runs_of solo l = a ++ (c, n) :: (c, m) :: b -> solo c = true.
Proof.
  induction l as [|[c k] t IH]; intros a d n m b E; [destruct a; discriminate E|]. cbn [runs_of] in E.
  destruct (runs_of solo t) as [|[d' m'] u] eqn:ET; [destruct a as [|? [|]]; discriminate E|].
  destruct ((c =? d') && negb (solo c)) eqn:EC.
  - apply andb_true_iff in EC. destruct EC as [EC SC]. apply Z.eqb_eq in EC. subst d'.
    destruct a as [|x a]; cbn [app] in E; [|injection E as E1 E2; apply (IH ((c, m') :: a) d n m b); cbn [app]; rewrite E2; reflexivity].
    injection E as -> _ E2. apply (IH [] d m' m b). rewrite E2. reflexivity.
  - destruct a as [|x a]; cbn [app] in E; [|injection E as E1 E2; apply (IH a d n m b E2)].
    injection E as -> _ -> _ _. rewrite Z.eqb_refl in EC. cbn [andb] in EC. apply negb_false_iff. exact EC.
Qed.

(* ---- positions ---- *)
Fixpoint starts (pos : Z) (lens : list Z) : list Z := match lens with [] => [] | n :: t => pos :: starts (pos + n) t end.
Definition place (pos : Z) (l : list (Z * Z)) : list (Z * Z) := combine (map fst l) (starts pos (map snd l)).
Definition positive (l : list (Z * Z)) : Prop := Forall (fun x => 0 < snd x) l.

Lemma place_cons pos c n t : place pos ((c, n) :: t) = (c, pos) :: place (pos + n) t.
Proof. reflexivity. Qed.
Lemma total_app a b : total (a ++ b) = total a + total b.
Proof. induction a as [|x a IH]; [reflexivity|]. cbn. unfold total in *. rewrite IH. lia. Qed.
Lemma total_pos l : positive l -> 0 <= total l.
Proof. induction 1 as [|x l H _ IH]; cbn; [lia|]. unfold total in IH. lia. Qed.
Lemma place_app : forall a pos b, place pos (a ++ b) = place pos a ++ place (pos + total a) b.
Proof.
  induction a as [|[c n] a IH]; intros pos b; [change (total []) with 0; rewrite Z.add_0_r; reflexivity|]. cbn [app]. rewrite !place_cons, IH. cbn [app]. f_equal. f_equal. f_equal.
  change (total ((c, n) :: a)) with (n + total a). lia.
Qed.
Lemma place_fst : forall l pos, map fst (place pos l) = map fst l.
Proof. induction l as [|[c n] l IH]; intros pos; [reflexivity|]. rewrite place_cons. cbn [map fst]. rewrite IH. reflexivity. Qed.
Lemma place_bounds : forall l pos, positive l -> Forall (fun x => pos <= snd x < pos + total l) (place pos l).
Proof.
  induction l as [|[c n] l IH]; intros pos P; [constructor|]. inversion P as [|? ? P1 P2]; subst. cbn [snd] in P1. rewrite place_cons.
  change (total ((c, n) :: l)) with (n + total l). pose proof (total_pos l P2). constructor; [cbn; lia|].
  eapply Forall_impl; [|apply (IH (pos + n) P2)]. cbn. intros; lia.
Qed.
Lemma filter_all {A} (f : A -> bool) l : Forall (fun x => f x = true) l -> filter f l = l.
Proof. induction 1 as [|x l H _ IH]; [reflexivity|]. cbn. rewrite H, IH. reflexivity. Qed.
Lemma filter_none {A} (f : A -> bool) l : Forall (fun x => f x = false) l -> filter f l = [].
Proof. induction 1 as [|x l H _ IH]; [reflexivity|]. cbn. rewrite H, IH. reflexivity. Qed.

Lemma in_front_at l1 b n l2 : positive (l1 ++ (b, n) :: l2) -> in_front (place 0 (l1 ++ (b, n) :: l2)) (total l1) = place 0 l1.
Proof.
  intros P. apply Forall_app in P. destruct P as [P1 P2]. unfold in_front. rewrite place_app, filter_app, filter_all, filter_none; [apply app_nil_r| |].
  - eapply Forall_impl; [|apply (place_bounds _ _ P2)]. cbn beta. intros x H. apply Z.ltb_ge. lia.
  - eapply Forall_impl; [|apply (place_bounds _ _ P1)]. cbn beta. intros x H. apply Z.ltb_lt. lia.
Qed.
Lemma within_at l1 b n l2 b' n' l3 : positive (l1 ++ (b, n) :: l2 ++ (b', n') :: l3) ->
  within (place 0 (l1 ++ (b, n) :: l2 ++ (b', n') :: l3)) (total l1) (total l1 + n + total l2) = place (total l1 + n) l2.
Proof.
  intros P. apply Forall_app in P. destruct P as [P1 P2]. inversion P2 as [|? ? P3 P4]; subst. cbn [snd] in P3. apply Forall_app in P4. destruct P4 as [P4 P5].
  unfold within. rewrite place_app, filter_app, place_cons. cbn [filter snd]. rewrite place_app, filter_app.
  change (0 + total l1) with (total l1). rewrite Z.ltb_irrefl. cbn [andb].
  rewrite (filter_none _ (place 0 l1)), (filter_all _ (place (total l1 + n) l2)), filter_none; [apply app_nil_r| | |].
  - eapply Forall_impl; [|apply (place_bounds _ _ P5)]. cbn beta. intros x H. apply andb_false_iff. right. apply Z.ltb_ge. lia.
  - eapply Forall_impl; [|apply (place_bounds _ _ P4)]. cbn beta. intros x H. apply andb_true_iff. split; apply Z.ltb_lt; lia.
  - eapply Forall_impl; [|apply (place_bounds _ _ P1)]. cbn beta. intros x H. apply andb_false_iff. left. apply Z.ltb_ge. lia.
Qed.

(* ---- brackets get classes by their positions ---- *)
Section Paint.
Context (e : Z) (kk : Z -> Z).
Definition cl_at (c pos : Z) : Z := if bracket_class c then kk pos else c.
Fixpoint paint (pos : Z) (l : list (Z * Z)) : list (Z * Z) :=
  match l with [] => [] | (c, n) :: t => (cl_at c pos, n) :: paint (pos + n) t end.
Fixpoint ptag (pos : Z) (l : list (Z * Z)) : list (Z * bool) :=
  match l with [] => [] | (c, n) :: t => (cl_at c pos, bracket_class c) :: ptag (pos + n) t end.

Lemma fin_paint : forall l pos, positive l ->
  next_dir e (map natp (paint pos (runs_of bracket_class l))) = next_dir e (map natp (paint pos l)) /\
  (forall p, fin e p (map natp (paint pos (runs_of bracket_class l))) = fin e p (map natp (paint pos l))) /\
  positive (runs_of bracket_class l).
Proof.
  induction l as [|[c n] t IH]; intros pos P; [repeat split; constructor|]. inversion P as [|? ? P1 P2]; subst. cbn [snd] in P1.
  destruct (IH (pos + n) P2) as (I1 & I2 & I3).
  assert (SAME : forall u, next_dir e (map natp (paint (pos + n) u)) = next_dir e (map natp (paint (pos + n) t)) ->
    (forall p, fin e p (map natp (paint (pos + n) u)) = fin e p (map natp (paint (pos + n) t))) ->
    next_dir e (map natp (paint pos ((c, n) :: u))) = next_dir e (map natp (paint pos ((c, n) :: t))) /\
    (forall p, fin e p (map natp (paint pos ((c, n) :: u))) = fin e p (map natp (paint pos ((c, n) :: t))))).
  { intros u U1 U2. cbn [paint map natp fst snd next_dir fin]. rewrite U1. split; [reflexivity|]. intros p. rewrite !U2. reflexivity. }
  destruct (SAME _ I1 I2) as (J1 & J2). cbn [runs_of]. destruct (runs_of bracket_class t) as [|[d m] u] eqn:ET.
  { split; [exact J1|]. split; [exact J2|]. constructor; [exact P1|constructor]. }
  inversion I3 as [|? ? P3 P4]; subst. cbn [snd] in P3.
  destruct ((c =? d) && negb (bracket_class c)) eqn:EC.
  - apply andb_true_iff in EC. destruct EC as [EC SC]. apply Z.eqb_eq in EC. subst d. apply negb_true_iff in SC.
    assert (CA : forall q, cl_at c q = c) by (intros q; unfold cl_at; rewrite SC; reflexivity).
    assert (EQ : map natp (paint pos ((c, n + m) :: u)) = (c, (Z.to_nat n + Z.to_nat m)%nat) :: map natp (paint (pos + n + m) u)).
    { cbn [paint map]. unfold natp at 1. cbn [fst snd]. rewrite CA, Z2Nat.inj_add by lia. rewrite Z.add_assoc. reflexivity. }
    assert (EQ2 : map natp (paint pos ((c, n) :: (c, m) :: u)) = (c, Z.to_nat n) :: (c, Z.to_nat m) :: map natp (paint (pos + n + m) u)).
    { cbn [paint map]. unfold natp at 1 2. cbn [fst snd]. rewrite !CA. reflexivity. }
    rewrite EQ2 in J1, J2. rewrite EQ. split; [rewrite <- next_join; exact J1|]. split; [intros p; rewrite <- fin_join; apply J2|].
    constructor; [cbn; lia|auto].
  - split; [exact J1|]. split; [exact J2|]. constructor; auto.
Qed.

(* A neutral before a bracket. *)
Fixpoint nbc (p : Z) (l : list (Z * bool)) : Prop :=
  match l with
  | [] => True
  | (c, _) :: t => if c =? cNI then match t with [] => True | (d, b) :: _ => b = true -> p = d -> p = e end /\ nbc p t else nbc c t
  end.
End Paint.

Lemma nbc_nb md kk : forall l pos p, Forall (fun z => snd z = true -> fst z <> cNI) (ptag kk pos l) ->
  nbc (outer md) p (ptag kk pos l) -> nb md p (ptag kk pos (runs_of bracket_class l)).
Proof.
  induction l as [|[c n] t IH]; intros pos p F H; [exact I|]. cbn [ptag] in F, H. inversion F as [|? ? F1 F2]; subst. cbn [fst snd] in F1.
  cbn [nbc] in H. cbn [runs_of].
  destruct (runs_of bracket_class t) as [|[d m] u] eqn:ET.
  { cbn [ptag nb]. destruct (cl_at kk c pos =? cNI); auto. }
  destruct ((c =? d) && negb (bracket_class c)) eqn:EC.
  - apply andb_true_iff in EC. destruct EC as [EC SC]. apply Z.eqb_eq in EC. subst d. apply negb_true_iff in SC.
    assert (CA : forall q, cl_at kk c q = c) by (intros q; unfold cl_at; rewrite SC; reflexivity).
    rewrite CA in H. cbn [ptag]. rewrite CA, Z.add_assoc. cbn [nb]. destruct (Z.eqb_spec c cNI) as [->|N].
    + destruct H as [_ H]. specialize (IH (pos + n) p F2 H). cbn [ptag] in IH. rewrite CA in IH. cbn [nb] in IH.
      change (cNI =? cNI) with true in IH. cbv iota in IH. exact IH.
    + specialize (IH (pos + n) c F2 H). cbn [ptag] in IH. rewrite CA in IH. cbn [nb] in IH. apply Z.eqb_neq in N. rewrite N in IH. exact IH.
  - cbn [ptag nb] in *. destruct (Z.eqb_spec (cl_at kk c pos) cNI) as [X|X].
    + destruct H as [H1 H2]. specialize (IH (pos + n) p F2 H2). split; [|exact IH].
      destruct t as [|[c2 n2] t]; [discriminate ET|]. destruct (runs_of_hd bracket_class c2 n2 t) as (m2 & u2 & E2). rewrite ET in E2. injection E2 as -> -> ->.
      cbn [ptag] in H1, F2. split; [|exact H1]. inversion F2 as [|? ? F3 _]; subst. cbn [fst snd] in F3.
      destruct (bracket_class c2) eqn:B2; [auto|]. unfold cl_at. rewrite B2. intros ->.
      unfold cl_at in X. destruct (bracket_class c) eqn:BC; [apply F1; auto; unfold cl_at; rewrite BC; exact X|]. subst c. cbn in EC. discriminate EC.
    + apply (IH (pos + n) _ F2 H).
Qed.

(* ---- the rules on the classes of such texts ---- *)
Definition seven : list Z := [cL; cR; cS; cWS; cON; cBRACKO; cBRACKC].
Ltac cases7 I := cbn [seven In] in I; repeat (destruct I as [I|I]; [subst|]); [..|contradiction I].

Lemma W1_seven : forall cs p, Forall (fun c => In c (cNSM :: seven)) cs -> In p seven -> Forall (fun c => In c seven) (W1 p cs).
Proof.
  induction cs as [|c t IH]; intros p F P; [constructor|]. inversion F as [|? ? F1 F2]; subst. cbn [W1].
  assert (Q : In (if c =? cNSM then p else c) seven) by (destruct F1 as [<-|F1]; [exact P|]; destruct (c =? cNSM); auto).
  constructor; auto.
Qed.

Lemma weak_id e cs : Forall (fun c => In c seven) (W1 e cs) -> weak_rules e cs = W1 e cs.
Proof.
  unfold weak_rules. generalize (W1 e cs). clear cs. intros l F.
  assert (A2 : forall l p, Forall (fun c => In c seven) l -> W2 p l = l).
  { clear. induction l as [|c t IH]; intros p F; [reflexivity|]. inversion F as [|? ? F1 F2]; subst. cbn [W2]. rewrite IH by auto. f_equal. cases7 F1; reflexivity. }
  assert (A3 : W3 l = l).
  { clear - F. induction F as [|c t I _ IH]; [reflexivity|]. unfold W3 in *. cbn [map]. rewrite IH. f_equal. cases7 I; reflexivity. }
  assert (A4 : forall l p, Forall (fun c => In c seven) l -> W4 p l = l).
  { clear. induction l as [|c t IH]; intros p F; [reflexivity|]. inversion F as [|? ? F1 F2]; subst. cbn [W4]. rewrite IH by auto. f_equal. cases7 F1; reflexivity. }
  assert (A5 : forall l p, Forall (fun c => In c seven) l -> W5 p l = l).
  { clear. induction l as [|c t IH]; intros p F; [reflexivity|]. inversion F as [|? ? F1 F2]; subst. cbn [W5].
    replace ((c =? cET) && ((p =? cEN) || en_ahead t)) with false by (cases7 F1; reflexivity). rewrite IH by auto. reflexivity. }
  assert (A6 : W6 l = l).
  { clear - F. induction F as [|c t I _ IH]; [reflexivity|]. unfold W6 in *. cbn [map]. rewrite IH. f_equal. cases7 I; reflexivity. }
  assert (A7 : forall l p, Forall (fun c => In c seven) l -> W7 p l = l).
  { clear. induction l as [|c t IH]; intros p F; [reflexivity|]. inversion F as [|? ? F1 F2]; subst. cbn [W7]. rewrite IH by auto. f_equal. cases7 F1; reflexivity. }
  rewrite A2, A3, A4, A5, A6, A7; auto.
Qed.

Lemma calm_seven : forall cs st prev, Forall (fun c => In c (cNSM :: seven)) cs -> In prev (cNULL :: seven) -> calm true st prev cs = true.
Proof.
  induction cs as [|c t IH]; intros st prev F P; [reflexivity|]. inversion F as [|? ? F1 F2]; subst. cbn [calm].
  set (k := if c =? cNSM then prev else c).
  assert (K : In k (cNULL :: seven)).
  { unfold k. destruct F1 as [<-|F1]; [exact P|]. destruct (c =? cNSM); [exact P|right; exact F1]. }
  rewrite IH by auto.
  assert (A : (k =? cEN) = false /\ (k =? cAN) = false) by (destruct K as [K|K]; [rewrite <- K; split; reflexivity|]; revert K; generalize k; intros z I; cases7 I; split; reflexivity).
  destruct A as [A1 A2]. rewrite A1, A2. cbn [andb negb]. rewrite andb_true_r.
  destruct F1 as [<-|F1]; [reflexivity|]. cases7 F1; reflexivity.
Qed.

Lemma norm_five c : In c seven -> lr (norm c) \/ norm c = cNI \/ bracket_class (norm c) = true /\ norm c = c.
Proof. intros I. unfold lr. cases7 I; cbn; auto. Qed.

Lemma pair_n0 e s cs : lr e -> Forall (fun c => In c seven) cs -> pair_class e s cs = n0 e s (map norm cs).
Proof.
  intros L F. assert (H : forall d, lr d -> existsb (has d) cs = existsb (Z.eqb d) (map norm cs)).
  { intros d D. clear - F D. induction F as [|c t I _ IH]; [reflexivity|]. cbn [existsb map]. rewrite IH. f_equal. destruct D as [-> | ->]; cases7 I; reflexivity. }
  unfold pair_class, n0. assert (O : other e = opposite e) by (destruct L as [-> | ->]; reflexivity). rewrite O.
  rewrite !H; auto. destruct L as [-> | ->]; unfold lr; cbn; auto.
Qed.
Lemma last_dir_norm cs : Forall (fun c => In c seven) cs -> forall s, last_dir s cs = last_strong s (map norm cs).
Proof.
  induction 1 as [|c t I _ IH]; intros s; [reflexivity|]. unfold last_dir, last_strong in *. cbn [map fold_left]. rewrite IH. f_equal. cases7 I; reflexivity.
Qed.

(* ---- the classes given by rule N0 ---- *)
Lemma given_pos e txt : forall prs g0 x, In x (fold_left (N0_pair e txt) prs g0) -> In x g0 \/ In (fst x) (map fst prs ++ map snd prs).
Proof.
  induction prs as [|pr prs IH]; intros g0 x I; [left; exact I|]. cbn [fold_left] in I. destruct (IH _ _ I) as [J|J].
  - unfold N0_pair in J. destruct (_ =? cNI); [auto|]. destruct J as [<-|[<-|J]]; [| |auto]; right; cbn [fst map]; [left; auto|].
    apply in_or_app. right. left. auto.
  - right. apply in_app_iff in J. apply in_or_app. cbn [map]. destruct J; [left|right]; right; auto.
Qed.
Lemma in_order_in : forall l x, In x (in_order l) -> In x l.
Proof.
  assert (A : forall l p x, In x (insert p l) -> x = p \/ In x l).
  { induction l as [|y l IH]; intros p x I; cbn [insert] in I; [destruct I as [<-|[]]; auto|]. destruct (_ <? _).
    - destruct I as [<-|I]; auto.
    - destruct I as [<-|I]; [right; left; auto|]. destruct (IH _ _ I); auto. right. right. auto. }
  induction l as [|p l IH]; intros x I; [exact I|]. cbn [in_order fold_right] in I. destruct (A _ _ _ I) as [->|J]; [left; auto|right; auto].
Qed.
Lemma bd16_in tb cn : forall txt stk q p, In (q, p) (bd16 tb cn stk txt) -> (In q (map snd stk) \/ In q (map snd txt)) /\ In p (map snd txt).
Proof.
  assert (P : forall c stk q s, bd_pop c stk = Some (q, s) -> In q (map snd stk) /\ incl s stk).
  { induction stk as [|[x y] stk IH]; intros q s E; [discriminate|]. cbn [bd_pop] in E. destruct (_ =? _).
    - injection E as <- <-. split; [left; auto|]. intros z Z0. right. auto.
    - destruct (IH _ _ E) as [A B]. split; [right; auto|]. intros z Z0. right. auto. }
  induction txt as [|[r y] txt IH]; intros stk q p I; [destruct I|]. cbn [bd16] in I. cbn [map snd].
  assert (G : forall s, In (q, p) (bd16 tb cn s txt) -> incl (map snd s) (y :: map snd stk) -> (In q (map snd stk) \/ In q (y :: map snd txt)) /\ In p (y :: map snd txt)).
  { intros s J IC. destruct (IH _ _ _ J) as [A B]. split; [|right; auto]. destruct A as [A|A]; [|right; right; auto]. destruct (IC _ A) as [<-|X]; [right; left; auto|auto]. }
  destruct (is_opening tb r).
  - destruct (_ <? _)%nat; [|destruct I]. apply (G _ I). cbn [map snd]. apply incl_refl.
  - assert (N : incl (map snd stk) (y :: map snd stk)) by (intros z Z0; right; auto).
    destruct (is_closing tb r); [|apply (G _ I N)]. destruct (bd_pop (cn r) stk) as [[q' s]|] eqn:EP; [|apply (G _ I N)].
    destruct (P _ _ _ _ EP) as [A B]. destruct I as [I|I].
    + injection I as <- <-. split; [auto|left; auto].
    + apply (G _ I). intros z Z0. right. apply (incl_map snd B). exact Z0.
Qed.
Lemma now_out given c p : (forall x, In x given -> fst x <> p) -> now given (c, p) = c.
Proof.
  intros H. unfold now. cbn [fst snd]. destruct (find _ given) as [g|] eqn:E; [|reflexivity]. apply find_some in E. destruct E as [A B].
  apply Z.eqb_eq in B. elim (H g A B).
Qed.
Lemma now_in given c p : now given (cNI, p) <> cNI -> now given (c, p) = now given (cNI, p).
Proof. unfold now. cbn [fst snd]. destruct (find _ given); [reflexivity|congruence]. Qed.

(* ---- conditions ----
   The classes that the code gives to the brackets of a pair are those of the rule: it looks at the classes
   of the text, without those that have been given to brackets; before the first strong character it takes
   L for the strong class, unless it is at the beginning of the paragraph.  All brackets are in pairs with a
   strong character inside. *)
Definition settled (e : Z) (txt pairs : list (Z * Z)) : bool :=
  let given := N0_given e txt pairs in
  forallb (fun pr =>
    let before := map fst (in_front txt (fst pr)) in
    let k := pair_class e (match before with [] => e | _ => last_dir cL before end) (map fst (within txt (fst pr) (snd pr))) in
    negb (k =? cNI) && (now given (cNI, fst pr) =? k) && (now given (cNI, snd pr) =? k)) pairs &&
  forallb (fun x => if fst x =? cBRACKO then existsb (fun pr => fst pr =? snd x) pairs
                    else if fst x =? cBRACKC then existsb (fun pr => snd pr =? snd x) pairs else true) txt.
(* The neutrals before brackets get the direction of the embedding. *)
Fixpoint quiet (e : Z) (cs fs : list Z) : bool :=
  match cs, fs with
  | c :: t, f :: u => (if NI_class c then match t with d :: _ => negb (is_bracket d) || (f =? e) | [] => true end else true) && quiet e t u
  | _, _ => true
  end.

Section Point.
Context (e : Z) (given : list (Z * Z)).
Notation kk := (fun p => now given (cNI, p)).
Definition good (x : Z * Z) : Prop :=
  In (fst x) seven /\ (if is_bracket (fst x) then lr (kk (snd x)) else now given x = fst x).

Lemma point x : good x -> let c := plain_bracket (now given x) in
  short_class c = cl_at kk (norm (fst x)) (snd x) /\ three c /\ (is_bracket (fst x) = true -> c = kk (snd x)) /\ (NI_class c = NI_class (fst x)).
Proof.
  destruct x as [c p]. unfold good. cbn [fst snd]. intros [I H]. cbv zeta. destruct (is_bracket c) eqn:BC.
  - rewrite (now_in given c p) by (destruct H as [X|X]; rewrite X; discriminate).
    assert (PL : plain_bracket (now given (cNI, p)) = now given (cNI, p)) by (destruct H as [X|X]; rewrite X; reflexivity). rewrite PL.
    assert (NC : bracket_class (norm c) = true /\ NI_class c = false) by (cases7 I; try discriminate BC; split; reflexivity). destruct NC as [NC NC2].
    unfold cl_at. rewrite NC, NC2. split; [|split; [left; exact H|split; [auto|]]]; destruct H as [X|X]; rewrite X; reflexivity.
  - rewrite H. cases7 I; try discriminate BC; (split; [reflexivity|split; [|split; [discriminate|reflexivity]]]); unfold three, lr; cbn; auto.
Qed.

Lemma point_paint : forall cs lens pos, length lens = length cs -> Forall good (combine cs (starts pos lens)) ->
  let txt := combine cs (starts pos lens) in
  combine (map short_class (map plain_bracket (map (now given) txt))) (map Z.to_nat lens) = map natp (paint kk pos (combine (map norm cs) lens)) /\
  Forall three (map plain_bracket (map (now given) txt)) /\ length (map plain_bracket (map (now given) txt)) = length cs.
Proof.
  induction cs as [|c t IH]; intros [|n lens] pos LN F; try discriminate LN; [repeat split; constructor|]. injection LN as LN.
  cbn [starts combine] in F. inversion F as [|? ? F1 F2]; subst. destruct (IH lens (pos + n) LN F2) as (I1 & I2 & I3). destruct (point _ F1) as (P1 & P2 & _).
  cbv zeta in *. cbn [fst snd] in P1. cbn [starts combine map paint]. unfold natp at 1. cbn [fst snd]. rewrite P1, I1. split; [reflexivity|]. split; [constructor; auto|cbn; auto].
Qed.

Lemma quiet_nbc : forall cs lens pos p, length lens = length cs -> Forall good (combine cs (starts pos lens)) ->
  quiet e cs (N12 e p (map plain_bracket (map (now given) (combine cs (starts pos lens))))) = true ->
  nbc e p (ptag kk pos (combine (map norm cs) lens)).
Proof.
  induction cs as [|c t IH]; intros [|n lens] pos p LN F Q; try discriminate LN; [exact I|]. injection LN as LN.
  cbn [starts combine] in F. inversion F as [|? ? F1 F2]; subst. destruct (point _ F1) as (P1 & P2 & P3 & P4). cbv zeta in *. cbn [fst snd] in *.
  cbn [starts combine map N12] in Q. cbn [map combine ptag nbc]. rewrite <- P1.
  set (x := plain_bracket (now given (c, pos))) in *. destruct (NI_class x) eqn:EN.
  - assert (SX : short_class x = cNI) by (unfold short_class; rewrite EN; reflexivity). rewrite SX. change (cNI =? cNI) with true. cbv iota.
    cbn [quiet] in Q. apply andb_true_iff in Q. destruct Q as [Q1 Q2]. rewrite <- P4 in Q1. split; [|apply (IH lens (pos + n) p LN F2 Q2)].
    destruct t as [|d t]; [destruct lens; [exact I|discriminate LN]|]. destruct lens as [|m lens]; [discriminate LN|].
    cbn [starts combine] in F2. inversion F2 as [|? ? F3 _]; subst. destruct (point _ F3) as (R1 & R2 & R3 & R4). cbv zeta in *. cbn [fst snd] in *.
    cbn [map combine ptag]. intros BD PE.
    assert (ID : In d seven) by (apply F3). assert (BD' : is_bracket d = true) by (clear - ID BD; cases7 ID; try discriminate BD; reflexivity).
    rewrite BD' in Q1. cbn [negb orb] in Q1. apply Z.eqb_eq in Q1. specialize (R3 BD').
    assert (KL : lr (now given (cNI, pos + n))) by (destruct F3 as [_ F3]; cbn [fst snd] in F3; rewrite BD' in F3; exact F3).
    cbn [starts combine map side_ahead] in Q1. rewrite R3 in Q1.
    assert (N0 : NI_class (now given (cNI, pos + n)) = false) by (destruct KL as [X|X]; rewrite X; reflexivity). rewrite N0 in Q1.
    assert (SD : side (now given (cNI, pos + n)) = now given (cNI, pos + n)) by (destruct KL as [X|X]; rewrite X; reflexivity). rewrite SD in Q1.
    unfold cl_at in PE. rewrite BD in PE. rewrite <- PE, Z.eqb_refl in Q1. exact Q1.
  - assert (SX : short_class x = x) by (unfold short_class; rewrite EN; reflexivity). rewrite SX.
    assert (LX : lr x) by (destruct P2 as [X|X]; [exact X|congruence]). rewrite (lr_ni x LX).
    cbn [quiet] in Q. apply andb_true_iff in Q. destruct Q as [_ Q2]. replace (side x) with x in Q2 by (destruct LX as [X|X]; rewrite X; reflexivity).
    apply (IH lens (pos + n) x LN F2 Q2).
Qed.
End Point.

(* ---- the bracket pairs during the second pass ---- *)
Lemma opens_class es : forall h, Forall (fun b => clz (bp_open b) = cBRACKO) (bstack h) -> Forall (fun p => clz (pg_open p) = cBRACKO) (pairs h) ->
  Forall (fun p => clz (pg_open p) = cBRACKO) (pairs (bd16_run h es)).
Proof.
  induction es as [|[r s] es IH]; intros h FS F; [exact F|]. cbn [bd16_run fold_left].
  assert (A : Forall (fun b => clz (bp_open b) = cBRACKO) (bstack (bd16_step h (r, s))) /\ Forall (fun p => clz (pg_open p) = cBRACKO) (pairs (bd16_step h (r, s)))).
  { unfold bd16_step. destruct (negb _); [auto|]. destruct (clz s =? cBRACKO) eqn:EO.
    - unfold push_opening, bs_push. destruct (_ <=? _); [auto|]. destruct (negb _); [auto|]. destruct (find_opening _ _); [|auto].
      split; cbn; auto. apply Forall_app. split; auto. constructor; auto. cbn. apply Z.eqb_eq. exact EO.
    - unfold find_pair, pop_with.
      assert (P : forall n b bs, pop_loop (bstack h) r n = Some (b, bs) -> In b (bstack h) /\ exists i, bs = firstn i (bstack h)).
      { induction n as [|n IHn]; [discriminate|]. cbn [pop_loop]. intros b bs. destruct (nth_error (bstack h) n) as [x|] eqn:X; [|discriminate].
        destruct (_ =? r); [|auto]. intros Y. injection Y as <- <-. split; [apply (nth_error_In _ _ X)|eauto]. }
      destruct (pop_loop _ _ _) as [[b bs]|] eqn:EP; [|auto]. destruct (P _ _ _ EP) as [I (i & ->)]. cbn [snd bstack pairs]. split.
      + rewrite Forall_forall in *. intros x X. apply FS. rewrite <- (firstn_skipn i). apply in_or_app. auto.
      + set (k := find_inx _ _ _ _). rewrite <- (firstn_skipn k (pairs h)) in F. apply Forall_app in F. destruct F as [F1 F2].
        apply Forall_app. split; auto. constructor; auto. cbn. rewrite Forall_forall in FS. apply FS, I. }
  destruct A. apply IH; auto.
Qed.

Lemma find_change ps s c p : find_pairing ps c = Some p -> clz c <> cBRACKO ->
  find_pairing (change_opening ps s) c = Some (if sl (pg_open p) =? sl s then mkpg (mkbp (with_clz (pg_open p) (clz s)) (bp_pair (pg_brk p))) (pg_close p) else p).
Proof.
  intros H N. apply Z.eqb_neq in N. induction ps as [|q ps IH]; [discriminate|]. cbn [find_pairing change_opening map] in *. rewrite N in *.
  assert (C : pg_close (if sl (pg_open q) =? sl s then mkpg (mkbp (with_clz (pg_open q) (clz s)) (bp_pair (pg_brk q))) (pg_close q) else q) = pg_close q)
    by (destruct (sl (pg_open q) =? sl s); reflexivity). rewrite C.
  destruct (sl (pg_close q) =? sl c); [injection H as <-; reflexivity|]. apply IH, H.
Qed.
Lemma find_changed c : clz c <> cBRACKO -> forall l ps p, find_pairing ps c = Some p ->
  exists p', find_pairing (fold_left change_opening l ps) c = Some p' /\ sl (pg_open p') = sl (pg_open p) /\
    ((forall x, In x l -> sl x <> sl (pg_open p)) \/ exists x, In x l /\ sl x = sl (pg_open p) /\ clz (pg_open p') = clz x).
Proof.
  intros N l ps p H. induction l as [|x l IH] using rev_ind.
  - exists p. split; [exact H|]. split; [reflexivity|]. left. intros x [].
  - destruct IH as (p' & E & S & D). rewrite fold_left_app. cbn [fold_left]. rewrite (find_change _ x c p' E N). eexists. split; [reflexivity|].
    destruct (Z.eqb_spec (sl (pg_open p')) (sl x)) as [X|X].
    + cbn. split; [exact S|]. right. exists x. split; [apply in_or_app; right; left; auto|]. split; [congruence|reflexivity].
    + split; [exact S|]. destruct D as [D|(y & Y1 & Y2 & Y3)].
      * left. intros y I. apply in_app_iff in I. destruct I as [I|[<-|[]]]; [auto|congruence].
      * right. exists y. split; [apply in_or_app; auto|auto].
Qed.
Lemma one_changed_fold : forall l h st, one h st -> one (mkh (bstack h) (fold_left change_opening l (pairs h))) (changed st l).
Proof.
  induction l as [|s l IH]; intros h st O; [destruct h; exact O|]. cbn [changed fold_left]. apply (IH _ _ (one_change h st s O)).
Qed.

(* A bracket that gets a strong class: back by two. *)
Lemma n0_jump st s c jmp st' : n0_at findBracket changeBracket st s = (c, jmp, st') -> c <> cNI -> c <> clz s -> jmp = -2.
Proof.
  unfold n0_at. destruct (findBracket st s) as [ans b]. destruct (clz s =? cBRACKO).
  - destruct ans as [cl|]; [|intros E; injection E as <- _ _; congruence].
    destruct (has_match_after cl s); [intros E; injection E as _ <- _; auto|]. destruct (has_opposite_after cl s); [intros E; injection E as _ <- _; auto|].
    intros E. injection E as <- _ _. congruence.
  - intros E N _. injection E as <- <- _. apply Z.eqb_neq in N. rewrite N. reflexivity.
Qed.

(* ---- views of the scraps ---- *)
Lemma fview_paint kk : forall ss lo hi, tiles lo ss hi -> map (fview kk) ss = map natp (paint kk lo (map srun ss)) /\ map (tag kk) ss = ptag kk lo (map srun ss).
Proof.
  induction ss as [|s ss IH]; intros lo hi T; [auto|]. destruct T as (T1 & T2 & T3). destruct (IH _ _ T3) as [I1 I2]. cbn [map]. unfold srun at 1 3. cbn [paint ptag map].
  replace (lo + (sr s - sl s)) with (sr s) by lia. rewrite I1, I2. subst lo. split; reflexivity.
Qed.

Lemma tiles_total : forall ss lo hi, tiles lo ss hi -> total (map srun ss) = hi - lo.
Proof.
  induction ss as [|s ss IH]; intros lo hi T; [cbn in *; lia|]. destruct T as (T1 & T2 & T3). cbn [map]. change (total (srun s :: map srun ss)) with (sr s - sl s + total (map srun ss)).
  rewrite (IH _ _ T3). lia.
Qed.
Lemma tiles_mid u : forall lo s v hi, tiles lo (u ++ s :: v) hi -> total (map srun u) = sl s - lo.
Proof.
  induction u as [|x u IH]; intros lo s v hi T; [destruct T; cbn; lia|]. destruct T as (T1 & T2 & T3). cbn [map].
  change (total (srun x :: map srun u)) with (sr x - sl x + total (map srun u)). rewrite (IH _ _ _ _ T3). lia.
Qed.

(* ---- the class of a pair, from the text and from the scraps ---- *)
Definition pair_from (e : Z) (txt : list (Z * Z)) (pr : Z * Z) : Z :=
  let before := map fst (in_front txt (fst pr)) in
  pair_class e (match before with [] => e | _ => last_dir cL before end) (map fst (within txt (fst pr) (snd pr))).

Lemma norm_place : forall cs lens pos, length lens = length cs ->
  place pos (combine (map norm cs) lens) = map (fun x => (norm (fst x), snd x)) (combine cs (starts pos lens)).
Proof.
  induction cs as [|c t IH]; intros [|n lens] pos LN; try discriminate LN; [reflexivity|]. injection LN as LN. cbn [map combine starts].
  rewrite place_cons, IH by auto. reflexivity.
Qed.
Lemma filter_pos (f : Z -> bool) txt : filter (fun x => f (snd x)) (map (fun x => (norm (fst x), snd x)) txt) = map (fun x => (norm (fst x), snd x)) (filter (fun x => f (snd x)) txt).
Proof. induction txt as [|x t IH]; [reflexivity|]. cbn [map filter snd]. destruct (f (snd x)); cbn [map]; rewrite IH; reflexivity. Qed.

Lemma pair_scraps e cs lens ss hi u o w c v : lr e -> length lens = length cs -> Forall (fun c => In c seven) cs -> Forall (fun n => 0 < n) lens ->
  tiles 0 ss hi -> map srun ss = runs_of bracket_class (combine (map norm cs) lens) ->
  ss = u ++ o :: w ++ c :: v -> isbracket o = true -> isbracket c = true ->
  pair_from e (combine cs (starts 0 lens)) (sl o, sl c) = n0 e (match u with [] => e | _ => last_strong cL (map clz u) end) (map clz w).
Proof.
  intros LE LN F7 FP T RS ES BO BC. set (txt := combine cs (starts 0 lens)). set (l := combine (map norm cs) lens) in *.
  assert (TX : Forall (fun x => In (fst x) seven) txt).
  { apply Forall_forall. intros [a b] I. apply in_combine_l in I. rewrite Forall_forall in F7. apply F7, I. }
  assert (PL : positive l).
  { apply Forall_forall. intros [a b] I. apply in_combine_r in I. rewrite Forall_forall in FP. apply FP, I. }
  rewrite ES, map_app in RS. cbn [map] in RS. rewrite map_app in RS. cbn [map] in RS. symmetry in RS. unfold srun at 2 4 in RS.
  destruct (runs_split _ _ _ _ _ _ RS BO) as (l1 & l' & E1 & R1 & R2). destruct (runs_split _ _ _ _ _ _ R2 BC) as (l2 & l3 & E2 & R3 & R4).
  assert (SO : sl o = total l1).
  { rewrite <- (runs_total bracket_class), R1. rewrite ES in T. rewrite (tiles_mid u 0 o _ hi T). lia. }
  assert (SC : sl c = total l1 + (sr o - sl o) + total l2).
  { rewrite <- (runs_total bracket_class l2), R3. rewrite ES in T. replace (u ++ o :: w ++ c :: v) with ((u ++ o :: w) ++ c :: v) in T by (rewrite <- app_assoc; reflexivity).
    pose proof (tiles_mid (u ++ o :: w) 0 c v hi T) as X. rewrite map_app in X. cbn [map] in X. rewrite total_app in X.
    change (total (srun o :: map srun w)) with (sr o - sl o + total (map srun w)) in X. rewrite <- R1, runs_total in X. lia. }
  subst l'. rewrite E1 in PL.
  pose proof (in_front_at _ _ _ _ PL) as IF. pose proof (within_at _ _ _ _ _ _ _ PL) as WI. rewrite <- E1 in IF, WI. rewrite <- SO in IF. rewrite <- SC in WI. rewrite <- SO in WI.
  assert (NP : place 0 l = map (fun x => (norm (fst x), snd x)) txt) by (apply norm_place; auto). rewrite NP in IF, WI.
  unfold in_front in IF. rewrite (filter_pos (fun z => z <? sl o)) in IF. fold (in_front txt (sl o)) in IF.
  unfold within in WI. rewrite (filter_pos (fun z => (sl o <? z) && (z <? sl c))) in WI. fold (within txt (sl o) (sl c)) in WI.
  assert (F1 : Forall (fun c => In c seven) (map fst (in_front txt (sl o)))).
  { apply Forall_map. rewrite Forall_forall in *. intros x I. apply filter_In in I. apply TX. tauto. }
  assert (F2 : Forall (fun c => In c seven) (map fst (within txt (sl o) (sl c)))).
  { apply Forall_map. rewrite Forall_forall in *. intros x I. apply filter_In in I. apply TX. tauto. }
  assert (M1 : map norm (map fst (in_front txt (sl o))) = map fst l1) by (rewrite <- (place_fst l1 0), <- IF, !map_map; reflexivity).
  assert (M2 : map norm (map fst (within txt (sl o) (sl c))) = map fst l2) by (rewrite <- (place_fst l2 (sl o + (sr o - sl o))), <- WI, !map_map; reflexivity).
  assert (U1 : map fst (map srun u) = map clz u) by (rewrite map_map; reflexivity).
  assert (U2 : map fst (map srun w) = map clz w) by (rewrite map_map; reflexivity).
  unfold pair_from. cbn [fst snd]. rewrite pair_n0, M2 by auto.
  assert (ST : match map fst (in_front txt (sl o)) with [] => e | _ :: _ => last_dir cL (map fst (in_front txt (sl o))) end = match u with [] => e | _ => last_strong cL (map clz u) end).
  { rewrite last_dir_norm, M1 by auto. rewrite <- (runs_last bracket_class), R1, U1.
    destruct u as [|x u]; [apply runs_nil in R1; subst l1; destruct (map fst (in_front txt (sl o))); [reflexivity|discriminate M1]|].
    destruct (map fst (in_front txt (sl o))); [|reflexivity]. destruct l1; [discriminate R1|discriminate M1]. }
  rewrite ST. unfold n0. rewrite <- U2, <- R3, !runs_existsb. reflexivity.
Qed.

Lemma txt_unique : forall (cs lens : list Z) (pos a b p : Z), Forall (fun n => 0 < n) lens -> In (a, p) (combine cs (starts pos lens)) -> In (b, p) (combine cs (starts pos lens)) -> a = b.
Proof.
  assert (B : forall (lens cs : list Z) (pos a p : Z), Forall (fun n => 0 < n) lens -> In (a, p) (combine cs (starts pos lens)) -> pos <= p).
  { induction lens as [|n lens IH]; intros [|c cs] pos a p F I; try contradiction I. inversion F; subst. cbn [starts combine] in I. destruct I as [I|I]; [injection I as _ <-; lia|].
    specialize (IH _ _ _ _ H2 I). lia. }
  induction cs as [|c cs IH]; intros [|n lens] pos a b p F I1 I2; try contradiction I1. inversion F as [|? ? F1 F2]; subst. cbn [starts combine] in I1, I2.
  destruct I1 as [I1|I1]; destruct I2 as [I2|I2]; try (apply (IH lens (pos + n) a b p); auto; fail).
  - congruence.
  - injection I1 as _ <-. specialize (B _ _ _ _ _ F2 I2). lia.
  - injection I2 as _ <-. specialize (B _ _ _ _ _ F2 I1). lia.
Qed.

Lemma good_tags giv : forall cs lens pos, length lens = length cs -> Forall (good giv) (combine cs (starts pos lens)) ->
  Forall (fun z => snd z = true -> fst z <> cNI) (ptag (fun p => now giv (cNI, p)) pos (combine (map norm cs) lens)).
Proof.
  induction cs as [|c t IH]; intros [|n lens] pos LN F; try discriminate LN; [constructor|].
  injection LN as LN. cbn [starts combine] in F. inversion F as [|? ? F1 F2]; subst. cbn [map combine ptag]. constructor; [|apply IH; auto].
  cbn [fst snd]. intros BC. unfold cl_at. rewrite BC. destruct F1 as [I7 F1]. cbn [fst snd] in I7, F1.
  assert (BC' : is_bracket c = true) by (clear - I7 BC; cases7 I7; try discriminate BC; reflexivity). rewrite BC' in F1.
  destruct F1 as [X|X]; rewrite X; discriminate.
Qed.

Section Main.
Context (md : mode) (props : Z -> Z * Z) (upper : Z -> bool).
Notation eff := (eff md props upper).
Notation para := (para md props).
Notation classes := (classes_of md props upper).
Notation e := (outer md).

Lemma bracket_positions : forall l prev pos,
  map snd (brackets_of md props upper prev pos l) = map snd (filter (fun x => is_bracket (fst x)) (combine (W1 prev (classes l)) (starts pos (map snd l)))).
Proof.
  induction l as [|[r n] t IH]; intros prev pos; [reflexivity|]. cbn [brackets_of]. unfold classes_of in *. cbn [map fst snd W1 starts combine filter].
  set (k := if eff r =? cNSM then prev else eff r). rewrite map_app, IH. change ((k =? cBRACKO) || (k =? cBRACKC)) with (is_bracket k).
  destruct (is_bracket k); reflexivity.
Qed.

(* The store while the second pass is at work: the opening brackets that have been passed are resolved. *)
Definition Sto (ss : list scrap) (st : scst) (kk : Z -> Z) (b : scst) (todo : list scrap) : Prop :=
  (exists l, b = changed st l /\ Forall (fun x => exists o, In o ss /\ clz o = cBRACKO /\ x = with_clz o (kk (sl o))) l /\
     forall o, In o ss -> clz o = cBRACKO -> In o todo \/ exists x, In x l /\ sl x = sl o) /\
  (forall s, In s todo -> isbracket s = true -> In s ss).

Lemma Sto_todo ss st kk b t t' : Sto ss st kk b t -> (forall s, isbracket s = true -> In s t <-> In s t') -> Sto ss st kk b t'.
Proof.
  intros [(l & E & F & O) B] H. split.
  - exists l. split; auto. split; auto. intros o I C. destruct (O o I C) as [X|X]; auto. left. apply H; auto. unfold isbracket. rewrite C. reflexivity.
  - intros s I BS. apply B; auto. apply H; auto.
Qed.

Lemma Y3_plain kk target a b : Y3 md kk target a b -> Forall (fun s => isbracket s = false) a.
Proof.
  intros [(-> & _)|(pre0 & -> & _ & F & _)]; [constructor|]. constructor.
  - unfold isbracket. destruct (initial_class md) as [X|X]; rewrite X; reflexivity.
  - eapply Forall_impl; [|exact F]. intros s. apply lr_nobr.
Qed.

(* Going back over scraps that are no brackets. *)
Lemma back_todo (a : list scrap) x b u v : Forall (fun s => isbracket s = false) a -> isbracket x = false -> u ++ v = a ++ x :: b -> (length u <= length a)%nat ->
  forall s, isbracket s = true -> In s v <-> In s b.
Proof.
  intros F NX E L s B. destruct (app_eq_app _ _ _ _ E) as (z & [[E1 E2]|[E1 E2]]).
  - assert (z = []) as -> by (destruct z; [auto|]; rewrite E1, app_length in L; cbn in L; lia). cbn [app] in E2. subst v. split; [intros [->|I]; [congruence|auto]|right; auto].
  - subst. apply Forall_app in F. destruct F as [_ F]. rewrite in_app_iff. rewrite Forall_forall in F. split.
    + intros [I|[->|I]]; [rewrite (F s I) in B; discriminate|congruence|auto].
    + intros I. right. right. auto.
Qed.

Theorem resolve_uax9_brackets input r len rest n : props_ok props -> lens_ok input -> total (para input) < 65536 ->
  para input = (r, len) :: rest -> eff r <> cNSM ->
  Forall (fun c => In c (cNSM :: seven)) (classes (para input)) -> Forall (fun x => 0 < snd x) (para input) ->
  let cs := classes (para input) in
  let lens := map snd (para input) in
  let bs := brackets_of md props upper cNULL 0 (para input) in
  let pairs := bd16 uax9BracketPairs canon13 [] bs in
  Forall (fun x => eff x = cBRACKO /\ is_op x = true \/ eff x = cBRACKC /\ is_cl x = true) (map fst bs) ->
  no_mix canon13 (map fst bs) (map fst bs) -> bd_fits uax9BracketPairs canon13 [] bs = true ->
  settled e (combine (weak_rules e cs) (starts 0 lens)) pairs = true ->
  quiet e (weak_rules e cs) (uax9_full e cs (starts 0 lens) pairs) = true ->
  (rounds (S (length input)) <= n)%nat ->
  exists lv, ResolveParagraph n md props upper None input = Ok (lv, []) /\ resolved md (total (para input)) lv /\
    painted (lv_scraps lv) = spread (uax9_full e cs (starts 0 lens) pairs) lens /\
    exists w, lv_scraps lv = initial md :: w ++ [mks cPDI (total (para input)) (total (para input)) dc0 []] /\
      Forall (fun s => clz s = cL \/ clz s = cR) w /\ linked differ w.
Proof.
  intros PO L B EP EF C8 FP cs lens bs pairs FB NM FI SE QU FU. unfold ResolveParagraph. rewrite prepared. cbn [rbind].
  assert (B32 : total (para input) < 2 ^ 32) by lia.
  assert (SIM : simple md props upper (para input)).
  { split; [|exact FP]. eapply Forall_impl; [|exact C8]. intros c I. cbn beta in I. destruct I as [<-|I]; [split; [reflexivity|discriminate]|].
    cases7 I; (split; [reflexivity|discriminate]). }
  assert (CA : calm true cL cNULL (classes (para input)) = true) by (apply calm_seven; [exact C8|left; auto]).
  destruct (scan_calm md props upper true input r len rest) as (ss & E & G & NN & LE); auto; [discriminate|]. rewrite E. cbn [rbind].
  destruct (scan_runs md props upper true input r len rest) as (ss' & E' & RS); auto; [discriminate|].
  rewrite E in E'. injection E' as E'. apply app_inj_tail in E'. destruct E' as [<- _].
  destruct (scan_simple md props upper input r len rest PO L B32 EP EF SIM) as (ss' & E' & T & FS).
  rewrite E in E'. injection E' as E'. apply app_inj_tail in E'. destruct E' as [<- _].
  assert (FS' : Forall (fun s => sl s < sr s) ss) by (eapply Forall_impl; [|exact FS]; cbn; tauto).
  destruct (text_n0 md props upper input r len rest PO L B EP EF SIM) as (ss' & st & E' & ES & TN).
  rewrite E in E'. injection E' as E'. apply app_inj_tail in E'. destruct E' as [<- _].
  destruct (text_bd16 md props upper input r len rest PO L B32 EP EF SIM FB NM FI) as (ss' & st' & E' & ES' & _ & TB).
  rewrite E in E'. injection E' as E'. apply app_inj_tail in E'. destruct E' as [<- _].
  rewrite ES in ES'. injection ES' as <-. fold bs pairs in TB. rewrite ES. cbn [rbind].
  assert (FT : flat_text md props upper (para input)) by (destruct SIM as [S1 _]; eapply Forall_impl; [|exact S1]; cbn; tauto).
  destruct (scan_brackets md props upper input ss st L B32 FT E ES) as (es & M1 & M2 & ON & _).
  set (h := bd16_run new_handler es) in *.
  assert (OC : Forall (fun p => clz (pg_open p) = cBRACKO) (Brackets.pairs h)) by (apply opens_class; constructor).
  (* the text *)
  assert (LR : lr e) by apply e_is_lr.
  assert (C7 : Forall (fun c => In c seven) (W1 e cs)) by (apply W1_seven; [exact C8|destruct LR as [X|X]; rewrite X; cbn; auto]).
  unfold uax9_full in *. rewrite (weak_id e cs C7) in *.
  assert (HD : hd cL cs <> cNSM) by (unfold cs; rewrite EP; exact EF).
  assert (W1E : forall p, W1 p cs = W1 e cs).
  { intros p. destruct cs as [|c t]; [reflexivity|]. cbn [hd] in HD. cbn [W1]. apply Z.eqb_neq in HD. rewrite HD. reflexivity. }
  assert (LN : length lens = length (W1 e cs)).
  { assert (X : forall l p, length (W1 p l) = length l) by (induction l; intros; cbn; auto). rewrite X. unfold lens, cs, classes_of. rewrite !map_length. reflexivity. }
  assert (FL : Forall (fun n => 0 < n) lens) by (unfold lens; apply Forall_map; exact FP).
  set (txt := combine (W1 e cs) (starts 0 lens)) in *. set (l := combine (map norm (W1 e cs)) lens).
  assert (RL : map srun ss = runs_of bracket_class l) by (rewrite RS; unfold chars, l; fold cs lens; rewrite (W1E cL); reflexivity).
  set (giv := N0_given e txt pairs) in *. set (kk := fun p => now giv (cNI, p)).
  assert (PRS : forall pr, In pr pairs -> lr (pair_from e txt pr) /\ kk (fst pr) = pair_from e txt pr /\ kk (snd pr) = pair_from e txt pr).
  { intros pr I. unfold settled in SE. apply andb_true_iff in SE. destruct SE as [SE _]. rewrite forallb_forall in SE. specialize (SE pr I). cbv zeta in SE. fold giv in SE.
    apply andb_true_iff in SE. destruct SE as [SE K2]. apply andb_true_iff in SE. destruct SE as [K0 K1]. apply Z.eqb_eq in K1, K2. apply negb_true_iff, Z.eqb_neq in K0.
    unfold kk. rewrite K1, K2. unfold pair_from. split; [|auto]. revert K0. unfold pair_class. destruct (existsb _ _); [intros _; exact LR|].
    destruct (existsb _ _); [|congruence]. destruct (_ =? _); intros _; [|exact LR]. unfold other. destruct (e =? cL); unfold lr; auto. }
  assert (BRK : forall x, In x txt -> is_bracket (fst x) = true -> lr (kk (snd x))).
  { intros x I BX. unfold settled in SE. apply andb_true_iff in SE. destruct SE as [_ SE]. rewrite forallb_forall in SE. specialize (SE x I). unfold is_bracket in BX.
    destruct (fst x =? cBRACKO); [|cbn [orb] in BX; rewrite BX in SE]; apply existsb_exists in SE; destruct SE as (pr & IP & EQ); apply Z.eqb_eq in EQ;
      destruct (PRS pr IP) as (A1 & A2 & A3); rewrite <- EQ, ?A2, ?A3; exact A1. }
  assert (GOOD : Forall (good giv) txt).
  { apply Forall_forall. intros [c p] I. split; cbn [fst snd].
    { rewrite Forall_forall in C7. apply C7. apply in_combine_l in I. exact I. }
    destruct (is_bracket c) eqn:BC; [apply (BRK _ I BC)|]. apply now_out. intros g IG EQ.
    assert (IB : In p (map snd bs)).
    { unfold giv, N0_given in IG. apply given_pos in IG. destruct IG as [[]|IG]. rewrite EQ in IG.
      assert (X : exists pr, In pr pairs /\ (fst pr = p \/ snd pr = p)).
      { apply in_app_iff in IG. destruct IG as [IG|IG]; apply in_map_iff in IG; destruct IG as (pr & Y & IP); exists pr; (split; [apply in_order_in, IP|auto]). }
      destruct X as ([q1 q2] & IP & X). apply bd16_in in IP. cbn [map] in IP. cbn [fst snd] in X. destruct IP as [[[]|IP1] IP2]. destruct X as [<- | <-]; auto. }
    unfold bs in IB. rewrite bracket_positions in IB. fold cs lens in IB. rewrite (W1E cNULL) in IB. fold txt in IB.
    apply in_map_iff in IB. destruct IB as ([c' p'] & Y & IF). cbn [snd] in Y. subst p'. apply filter_In in IF. destruct IF as [IF BC']. cbn [fst] in BC'.
    rewrite (txt_unique _ _ _ _ _ _ FL IF I) in BC'. congruence. }
  destruct (point_paint giv (W1 e cs) lens 0 LN GOOD) as (PP & P3 & PLN). cbv zeta in PP, P3, PLN. fold txt kk l in PP, P3, PLN.
  set (target := spread (N12 e e (map plain_bracket (N0 e txt pairs))) lens).
  assert (PL : positive l).
  { apply Forall_forall. intros [x y] I. apply in_combine_r in I. rewrite Forall_forall in FL. apply FL, I. }
  destruct (fin_paint e kk l 0 PL) as (_ & FPT & _). destruct (fview_paint kk ss 0 _ T) as (FV & TV).
  assert (TG : fin e e (map (fview kk) ss) = target).
  { rewrite FV, RL, FPT. unfold target, N0. fold giv. rewrite N12_fin; [rewrite PP; reflexivity|rewrite PLN; exact LN|exact P3]. }
  (* brackets of the scraps *)
  assert (C5 : Forall (fun s => lr (clz s) \/ clz s = cNI \/ isbracket s = true) ss).
  { assert (X : Forall (fun x => lr (fst x) \/ fst x = cNI \/ bracket_class (fst x) = true) (runs_of bracket_class l)).
    { assert (Y : Forall (fun x => lr (fst x) \/ fst x = cNI \/ bracket_class (fst x) = true) l).
      { apply Forall_forall. intros [x y] I. apply in_combine_l in I. apply in_map_iff in I. destruct I as (c & <- & I). rewrite Forall_forall in C7.
        destruct (norm_five c (C7 c I)) as [X|[X|[X _]]]; auto. }
      clear - Y. induction Y as [|[c k] t H _ IH]; [constructor|]. cbn [runs_of]. destruct (runs_of bracket_class t) as [|[d m] u]; [constructor; auto|].
      destruct (_ && _); inversion IH; subst; constructor; auto. }
    rewrite <- RL in X. apply Forall_map in X. exact X. }
  assert (OPEN : forall o, In o ss -> clz o = cBRACKO -> exists c, fst (findBracket st o) = Some c /\ In c ss /\ In (sl o, sl c) pairs).
  { intros o I CO. specialize (TB o I ltac:(unfold isbracket; rewrite CO; reflexivity)). rewrite CO, Z.eqb_refl in TB.
    destruct (fst (findBracket st o)) as [c|]; [exists c; tauto|]. exfalso.
    assert (IX : In (cBRACKO, sl o) txt).
    { apply in_split in I. destruct I as (u & v & EQ). rewrite EQ, map_app in RL. cbn [map] in RL. symmetry in RL. unfold srun at 2 in RL. rewrite CO in RL.
      destruct (runs_split _ _ _ _ _ _ RL eq_refl) as (l1 & l2 & EL & R1 & _).
      assert (SO : sl o = total l1) by (rewrite <- (runs_total bracket_class), R1; rewrite EQ in T; rewrite (tiles_mid u 0 o v _ T); lia).
      assert (NP : place 0 l = map (fun x => (norm (fst x), snd x)) txt) by (apply norm_place; auto).
      assert (IP : In (cBRACKO, sl o) (place 0 l)) by (rewrite EL, place_app, place_cons; apply in_or_app; right; left; rewrite SO; reflexivity).
      rewrite NP in IP. apply in_map_iff in IP. destruct IP as ([c p] & Y & IP). cbn [fst snd] in Y. injection Y as Y1 ->.
      assert (I7 : In c seven) by (rewrite Forall_forall in C7; apply in_combine_l in IP; auto). cases7 I7; vm_compute in Y1; try discriminate Y1; exact IP. }
    unfold settled in SE. apply andb_true_iff in SE. destruct SE as [_ SE]. rewrite forallb_forall in SE. specialize (SE _ IX). cbn [fst snd] in SE.
    rewrite Z.eqb_refl in SE. apply existsb_exists in SE. destruct SE as (pr & IP & EQ). apply Z.eqb_eq in EQ. apply (TB pr IP EQ). }
  assert (CLOSE : forall c, In c ss -> clz c = cBRACKC -> exists p, find_pairing (Brackets.pairs h) c = Some p /\ In (pg_open p) ss /\ In (sl (pg_open p), sl c) pairs).
  { intros c I CC. specialize (TB c I ltac:(unfold isbracket; rewrite CC; reflexivity)). rewrite CC in TB. change (cBRACKC =? cBRACKO) with false in TB. cbv iota in TB.
    rewrite (one_find h st c ON) in TB. cbn [fst] in TB. rewrite CC in TB. change (cBRACKC =? cBRACKO) with false in TB. cbv iota in TB.
    destruct (find_pairing (Brackets.pairs h) c) as [p|]; [exists p; tauto|]. exfalso.
    assert (IX : In (cBRACKC, sl c) txt).
    { apply in_split in I. destruct I as (u & v & EQ). rewrite EQ, map_app in RL. cbn [map] in RL. symmetry in RL. unfold srun at 2 in RL. rewrite CC in RL.
      destruct (runs_split _ _ _ _ _ _ RL eq_refl) as (l1 & l2 & EL & R1 & _).
      assert (SO : sl c = total l1) by (rewrite <- (runs_total bracket_class), R1; rewrite EQ in T; rewrite (tiles_mid u 0 c v _ T); lia).
      assert (NP : place 0 l = map (fun x => (norm (fst x), snd x)) txt) by (apply norm_place; auto).
      assert (IP : In (cBRACKC, sl c) (place 0 l)) by (rewrite EL, place_app, place_cons; apply in_or_app; right; left; rewrite SO; reflexivity).
      rewrite NP in IP. apply in_map_iff in IP. destruct IP as ([c' p] & Y & IP). cbn [fst snd] in Y. injection Y as Y1 ->.
      assert (I7 : In c' seven) by (rewrite Forall_forall in C7; apply in_combine_l in IP; auto). cases7 I7; vm_compute in Y1; try discriminate Y1; exact IP. }
    unfold settled in SE. apply andb_true_iff in SE. destruct SE as [_ SE]. rewrite forallb_forall in SE. specialize (SE _ IX). cbn [fst snd] in SE.
    change (cBRACKC =? cBRACKO) with false in SE. rewrite Z.eqb_refl in SE. cbv iota in SE. apply existsb_exists in SE. destruct SE as (pr & IP & EQ). apply Z.eqb_eq in EQ. apply (TB pr IP EQ). }
  assert (KLR : forall s, In s ss -> isbracket s = true -> lr (kk (sl s))).
  { intros s I BS. unfold isbracket in BS. apply orb_true_iff in BS. destruct BS as [X|X]; apply Z.eqb_eq in X.
    - destruct (OPEN s I X) as (c & _ & _ & IP). destruct (PRS _ IP) as (A1 & A2 & _). cbn [fst] in A2. rewrite A2. exact A1.
    - destruct (CLOSE s I X) as (p & _ & _ & IP). destruct (PRS _ IP) as (A1 & _ & A2). cbn [snd] in A2. rewrite A2. exact A1. }
  assert (FF : F3 md kk target ss).
  { split; [|split; [|exact TG]].
    - rewrite Forall_forall in *. intros s I. destruct (C5 s I) as [X|[X|X]]; [left; auto|right; left; auto|right; right; split; auto].
    - rewrite TV, RL. apply nbc_nb; [|apply quiet_nbc; auto].
      apply good_tags; auto. }
  set (Y1 := fun pre rest : list scrap => pre ++ rest = ss).
  set (Y2 := fun b pre rest => Y3 md kk target pre rest /\ Sto ss st kk b rest).
  destruct (resolve_flat_gen md (total (para input)) true findBracket changeBracket st Y1 Y2) with (ss := ss) (stp := stopper) (extra := @nil scrap) (n := n)
    as (lv & R1 & R2 & w & R3 & b & R4 & _); auto.
  - (* pass 1 has nothing to do *)
    intros a m b0 r0 _ Y _ P1 M _ _. exfalso. unfold Y1 in Y.
    assert (IM : forall x, In x m -> lr (clz x) \/ clz x = cNI \/ isbracket x = true).
    { intros x I. rewrite Forall_forall in C5. apply C5. rewrite <- Y. apply in_or_app. right. apply in_or_app. auto. }
    assert (WK : forall x, In x m -> weak (clz x) = false /\ clz x <> cAN).
    { intros x I. destruct (IM x I) as [[X|X]|[X|X]]; try (rewrite X; split; [reflexivity|discriminate]).
      unfold isbracket in X. apply orb_true_iff in X. destruct X as [X|X]; apply Z.eqb_eq in X; rewrite X; (split; [reflexivity|discriminate]). }
    destruct r0; try discriminate P1; cbn [lhs] in M; inv_map;
      try (match goal with H : clz ?x = _ |- _ => destruct (WK x ltac:(cbn; auto)) as [W _]; rewrite H in W; discriminate W end).
    all: try (match goal with H : clz ?x = _ |- _ => destruct (WK x ltac:(cbn; auto)) as [_ W]; rewrite H in W; contradiction W; reflexivity end).
    rewrite <- Y, map_app in RL. cbn [app map] in RL. unfold srun at 2 3 in RL. rewrite H, H0 in RL. symmetry in RL. apply runs_apart in RL. discriminate RL.
  - intros a s b0 _ Y _ _ _. unfold Y1 in *. rewrite <- app_assoc. exact Y.
  - intros w _ Y _. unfold Y1 in Y. rewrite app_nil_r in Y. subst w. split; [left; eauto|]. split.
    + exists []. split; [reflexivity|]. split; [constructor|]. intros o I _. left. right. exact I.
    + intros s [<-|I] BS; [|exact I]. unfold isbracket in BS. destruct (initial_class md) as [X|X]; rewrite X in BS; discriminate BS.
  - intros b0 a m b1 r0 G2' [Y S] R M. split; [eapply Y3_meld; eauto|]. apply (Sto_todo _ _ _ _ _ _ S). intros s BS.
    assert (NMM : Forall (fun s => isbracket s = false) m /\ isbracket (merge (target2 r0) m) = false).
    { destruct (lhs_meld r0 R) as (c & LC & TC & LH). split.
      - assert (X : Forall (fun c => (c =? cBRACKO) || (c =? cBRACKC) = false) (map clz m)); [|apply Forall_map in X; exact X]. rewrite M.
        destruct LC as [<-|[<-|[]]]; destruct LH as [X|X]; rewrite X; auto 6.
      - rewrite TC. unfold isbracket. cbn [merge clz]. destruct LC as [<-|[<-|[]]]; reflexivity. }
    destruct NMM as [NM1 NM2]. rewrite in_app_iff. rewrite Forall_forall in NM1. split.
    + intros [I|I]; [rewrite (NM1 s I) in BS; discriminate|right; exact I].
    + intros [<-|I]; [congruence|auto].
  - intros b0 a s b1 G2' [Y S] SN KS. pose proof (Y3_plain _ _ _ _ Y) as PA. split; [eapply Y3_N2; eauto|]. apply (Sto_todo _ _ _ _ _ _ S). intros x BX.
    assert (NS : isbracket (with_clz s (se s)) = false) by (unfold isbracket; cbn [clz with_clz]; destruct KS as [X|[_ X]]; rewrite X; reflexivity).
    rewrite (back_todo a (with_clz s (se s)) b1 (firstn (length a - 1) a) (skipn (length a - 1) a ++ with_clz s (se s) :: b1)); auto.
    + split; [intros [<-|I]; [rewrite ni_nobr in BX; [discriminate|exact SN]|exact I]|right; auto].
    + rewrite app_assoc, firstn_skipn. reflexivity.
    + rewrite firstn_length. lia.
  - intros b0 a s b1 G2' [Y S] SN BS NM'. split; [eapply Y3_step; eauto|]. apply (Sto_todo _ _ _ _ _ _ S). intros x BX.
    split; [intros [<-|I]; [congruence|exact I]|right; auto].
  - (* brackets *)
    intros b0 a s b1 c jmp b0' G2' [Y S] BS EN. pose proof (Y3_plain _ _ _ _ Y) as PA. right.
    destruct (Y3_set md kk target a s b1 Y BS) as [LK Y'].
    pose proof S as [(ch & EB & FCH & OPS) INS]. assert (IS : In s ss) by (apply INS; [left; auto|exact BS]).
    assert (KEY : c = kk (sl s) /\ Sto ss st kk b0' b1).
    { unfold isbracket in BS. apply orb_true_iff in BS. destruct BS as [X|X]; apply Z.eqb_eq in X.
      - (* opening *)
        destruct (OPEN s IS X) as (c0 & FC & IC & IP). destruct (in_split _ _ IS) as (u0 & t0 & EQ).
        specialize (TN u0 s t0 ch (mkp [s] 0 false [] 0 b0) EQ X EB eq_refl). rewrite FC in TN.
        destruct TN as (w & v & k & p' & jmp' & ET & CC & PN & PS & _ & PST & PK & _).
        rewrite (performRuleN0_at findBracket changeBracket (mkp [s] 0 false [] 0 b0) [] s [] c jmp b0' eq_refl eq_refl EN) in PN. injection PN as <- <-.
        cbn [p_stack p_store app nset p_sp] in PS, PST. injection PS as PS.
        assert (PF : pair_from e txt (sl s, sl c0) = n0 e (match u0 with [] => e | _ => last_strong cL (map clz u0) end) (map clz w)).
        { apply (pair_scraps e (W1 e cs) lens ss (total (para input)) u0 s w c0 v); auto; [rewrite EQ, ET; reflexivity| |]; unfold isbracket; [rewrite X|rewrite CC]; reflexivity. }
        destruct (PRS _ IP) as (A1 & A2 & _). cbn [fst] in A2. cbv zeta in PK.
        assert (KK : k = kk (sl s)).
        { destruct PK as [PK|(_ & _ & N1 & N2)]; [rewrite A2, PF; exact PK|]. exfalso. rewrite PF in A1. unfold n0 in A1. rewrite N1, N2 in A1. destruct A1 as [A1|A1]; discriminate A1. }
        assert (CK : c = k) by congruence. split; [congruence|]. rewrite PST. split.
        + exists (ch ++ [with_clz s k]). split; [reflexivity|]. split.
          * apply Forall_app. split; [exact FCH|]. constructor; [|constructor]. exists s. split; [exact IS|]. split; [exact X|]. rewrite KK. reflexivity.
          * intros o IO CO. destruct (OPS o IO CO) as [[<-|IT]|(x & IX & SX)].
            -- right. exists (with_clz s k). split; [apply in_or_app; right; left; reflexivity|reflexivity].
            -- left. exact IT.
            -- right. exists x. split; [apply in_or_app; left; exact IX|exact SX].
        + intros x IX BX. apply INS; [right; exact IX|exact BX].
      - (* closing *)
        destruct (CLOSE s IS X) as (p & FP' & IO & IP). assert (CN : clz s <> cBRACKO) by (rewrite X; discriminate).
        destruct (find_spec s _ _ FP') as [INP SPC]. apply Z.eqb_neq in CN as CN'. rewrite CN' in SPC.
        destruct (find_changed s CN ch _ _ FP') as (p' & FC & SP & D).
        pose proof (one_find _ _ s (one_changed_fold ch h st ON)) as FN. cbn [Brackets.pairs] in FN. rewrite FC, CN', <- EB in FN.
        assert (CO : clz (pg_open p) = cBRACKO) by (rewrite Forall_forall in OC; apply OC, INP).
        destruct (PRS _ IP) as (A1 & A2 & A3). cbn [fst snd] in A2, A3.
        assert (EX : exists x, In x ch /\ sl x = sl (pg_open p) /\ clz (pg_open p') = clz x).
        { destruct D as [D|D]; [|exact D]. exfalso. destruct (OPS _ IO CO) as [IT|(x & IX & SX)]; [|apply (D x IX SX)].
          assert (LT : sl (pg_open p) < sl s).
          { destruct (given_new es) as [_ GV]. fold h in GV. rewrite Forall_forall in GV. destruct (before_filter isbracket es ss _ _ M1 (GV p INP)) as (u1 & w1 & v1 & EQ).
            rewrite <- SPC. clear - T EQ FS'. rewrite EQ in T, FS'. apply Forall_app in FS'. destruct FS' as [_ F]. inversion F as [|? ? F1 _]; subst.
            apply tiles_app in T. destruct T as (m0 & _ & T). destruct T as (T1 & T2 & T3). pose proof (tiles_bounds _ _ _ T3) as TB0. rewrite Forall_forall in TB0.
            specialize (TB0 (pg_close p) ltac:(apply in_or_app; right; left; auto)). cbn beta in TB0. lia. }
          destruct G2' as (_ & _ & TT & _). apply tiles_app in TT. destruct TT as (m0 & _ & TT). pose proof (tiles_bounds _ _ _ TT) as TB0. destruct TT as (T1 & _).
          rewrite Forall_forall in TB0. specialize (TB0 _ IT). cbn beta in TB0. lia. }
        destruct EX as (x & IX & SX & CX).
        assert (KX : clz x = kk (sl s)).
        { rewrite Forall_forall in FCH. destruct (FCH x IX) as (o & _ & _ & EX). rewrite EX in SX. cbn [sl with_clz] in SX. rewrite EX. cbn [clz with_clz]. rewrite SX, A2, A3. reflexivity. }
        unfold n0_at in EN. rewrite FN, CN' in EN. injection EN as <- _ <-. split; [congruence|].
        split.
        + exists ch. split; [exact EB|]. split; [exact FCH|]. intros o IO' CO'. destruct (OPS o IO' CO') as [[E0|IT]|R0]; [rewrite E0 in CN; contradiction|left; exact IT|right; exact R0].
        + intros y IY BY. apply INS; [right; exact IY|exact BY]. }
    destruct KEY as [-> S'].
    assert (JJ : jmp = -2).
    { apply (n0_jump _ _ _ _ _ EN); [destruct LK as [X|X]; rewrite X; discriminate|]. unfold isbracket in BS. intros X. rewrite <- X in BS. destruct LK as [Z0|Z0]; rewrite Z0 in BS; discriminate BS. }
    subst jmp. split; [left; destruct LK as [X|X]; [left; exact X|right; split; [reflexivity|exact X]]|]. split; [lia|].
    intros u v EU LU. split; [apply Y'; auto|]. apply (Sto_todo _ _ _ _ _ _ S'). intros x BX. symmetry.
    apply (back_todo a (with_clz s (kk (sl s))) b1 u v); auto.
    + apply lr_nobr. exact LK.
    + rewrite LU. unfold jump. lia.
  - reflexivity.
  - discriminate.
  - assert ((rounds (length ss) <= rounds (S (length input)))%nat); [|lia]. unfold rounds. nia.
  - exists lv. split; auto. split; auto. rewrite R3. destruct (Y3_end md kk target w R4) as (P & w' & -> & P2 & P3').
    split; [|exists w'; auto]. unfold painted. rewrite flat_map_app.
    fold (painted (initial md :: w')). rewrite P. cbn. rewrite Z.sub_diag. cbn. apply app_nil_r.
Qed.

Theorem runs_uax9_brackets input r len rest n : props_ok props -> lens_ok input -> total (para input) < 65536 ->
  para input = (r, len) :: rest -> eff r <> cNSM ->
  Forall (fun c => In c (cNSM :: seven)) (classes (para input)) -> Forall (fun x => 0 < snd x) (para input) ->
  let cs := classes (para input) in
  let lens := map snd (para input) in
  let bs := brackets_of md props upper cNULL 0 (para input) in
  let pairs := bd16 uax9BracketPairs canon13 [] bs in
  Forall (fun x => eff x = cBRACKO /\ is_op x = true \/ eff x = cBRACKC /\ is_cl x = true) (map fst bs) ->
  no_mix canon13 (map fst bs) (map fst bs) -> bd_fits uax9BracketPairs canon13 [] bs = true ->
  settled e (combine (weak_rules e cs) (starts 0 lens)) pairs = true ->
  quiet e (weak_rules e cs) (uax9_full e cs (starts 0 lens) pairs) = true ->
  (rounds (S (length input)) <= n)%nat ->
  exists lv runs, ResolveParagraph n md props upper None input = Ok (lv, []) /\ Reorder lv = Some runs /\
    Forall run_ok runs /\ alternating None runs /\
    flat_map run_view runs = combine (zrange 0 (total (para input)))
      (map (fun c => c =? cR) (spread (uax9_full e cs (starts 0 lens) pairs) lens)).
Proof.
  intros PO L B EP EF C8 FP cs lens bs pairs FB NM FI SE QU FU.
  destruct (resolve_uax9_brackets input r len rest n PO L B EP EF C8 FP FB NM FI SE QU FU) as (lv & E & R & P & w & EW & FL & LD).
  exists lv. destruct (runs_resolved md (total (para input)) lv w ltac:(lia) R EW FL LD) as (runs & A1 & A2 & A3 & A4).
  exists runs. rewrite P in A4. auto.
Qed.
End Main.
