(* WordVerdict.v -- the word breaker realises the WB rules, up to WB7b with ignored characters. *)
From Coq Require Import List ZArith Lia Bool.
From Verif Require Import Base PrioQ PrioQProofs Recognizer Words WordSpec WordProofs BreakSpec Segmenter SegSpec SegProofs SegInv SegNext SegFacade BreakFacade SegWeak Rows.
Import ListNotations.
Open Scope Z_scope.

(* the summary of a left context, nearest first *)
Fixpoint wb_of (l : list Z) : wbase := match l with [] => W0 | c :: t => wbnext (wb_of t) c end.
Lemma wb_valid : forall l, wvalid (wb_of l).
Proof. induction l; simpl; auto. now apply wbnext_valid. Qed.

(* ---- the summary knows what the rules need ---- *)
Definition cls_ok (l : list Z) : Prop := Forall (fun c => In c classes) l.
Definition kA b := match b with WA _ => true | WH _ => true | _ => false end.
Definition kH b := match b with WH _ => true | _ => false end.
Definition kN b := match b with WN _ => true | _ => false end.
Definition kK b := match b with WK _ => true | _ => false end.
Definition kX b := match b with WX _ => true | _ => false end.
Definition kAM b := match b with WAM _ _ => true | _ => false end.
Definition kNM b := match b with WNM _ _ => true | _ => false end.
Definition kHD b := match b with WHD _ => true | _ => false end.

Lemma extend_ign c : extend c = ignored c.
Proof. reflexivity. Qed.
Lemma skip_ign c t : ignored c = true -> skip (c :: t) = skip t.
Proof. intros H. cbn [skip]. rewrite extend_ign, H. reflexivity. Qed.
Lemma skip_not c t : ignored c = false -> skip (c :: t) = c :: t.
Proof. intros H. cbn [skip]. rewrite extend_ign, H. reflexivity. Qed.

Ltac base_cases := match goal with |- context [wb_of ?t] => destruct (wb_of t) end.
Lemma one_kind (P : Z -> bool) (k : wbase -> bool) :
  k W0 = false ->
  (forall b c, ignored c = true -> k (wbnext b c) = k b) ->
  (forall b c, In c classes -> ignored c = false -> k (wbnext b c) = P c) ->
  forall l, cls_ok l -> one P l = k (wb_of l).
Proof.
  intros K0 K1 K2. induction l as [|c t IH]; intros H; [symmetry; exact K0|].
  pose proof (Forall_inv H) as Hc. pose proof (Forall_inv_tail H) as Ht. cbn [wb_of].
  destruct (ignored c) eqn:E.
  - unfold one. rewrite skip_ign by auto. rewrite K1 by auto. apply IH; auto.
  - unfold one. rewrite skip_not by auto. rewrite K2 by auto. reflexivity.
Qed.
Lemma two_kind (P Q : Z -> bool) (k k1 : wbase -> bool) :
  k W0 = false ->
  (forall b c, ignored c = true -> k (wbnext b c) = k b) ->
  (forall b c, In c classes -> ignored c = false -> k (wbnext b c) = P c && k1 b) ->
  (forall l, cls_ok l -> one Q l = k1 (wb_of l)) ->
  forall l, cls_ok l -> two P Q l = k (wb_of l).
Proof.
  intros K0 K1 K2 KQ. induction l as [|c t IH]; intros H; [symmetry; exact K0|].
  pose proof (Forall_inv H) as Hc. pose proof (Forall_inv_tail H) as Ht. cbn [wb_of].
  destruct (ignored c) eqn:E.
  - unfold two. rewrite skip_ign by auto. rewrite K1 by auto. apply IH; auto.
  - unfold two. rewrite skip_not by auto. rewrite K2 by auto. rewrite KQ by auto. reflexivity.
Qed.
Ltac k_ign := let b := fresh in let c := fresh in let H := fresh in intros b c H; unfold wbnext; rewrite H; destruct b; reflexivity.
Ltac k_cls := let b := fresh in let c := fresh in let H := fresh in let E := fresh in
  intros b c H E; unfold classes in H; repeat (destruct H as [<-|H]; [first [discriminate E | destruct b; vm_compute; reflexivity]|]); contradiction.

Lemma one_A l : cls_ok l -> one AHLetter l = kA (wb_of l).
Proof. apply one_kind; [reflexivity|k_ign|k_cls]. Qed.
Lemma one_H l : cls_ok l -> one (Z.eqb Hebrew_Letter) l = kH (wb_of l).
Proof. apply one_kind; [reflexivity|k_ign|k_cls]. Qed.
Lemma one_N l : cls_ok l -> one (Z.eqb Numeric) l = kN (wb_of l).
Proof. apply one_kind; [reflexivity|k_ign|k_cls]. Qed.
Lemma one_K l : cls_ok l -> one (Z.eqb Katakana) l = kK (wb_of l).
Proof. apply one_kind; [reflexivity|k_ign|k_cls]. Qed.
Lemma one_X l : cls_ok l -> one (Z.eqb ExtendNumLet) l = kX (wb_of l).
Proof. apply one_kind; [reflexivity|k_ign|k_cls]. Qed.
Definition k13a b := kA b || kN b || kK b || kX b.
Lemma one_13a l : cls_ok l -> one (fun x => AHLetter x || (x =? Numeric) || (x =? Katakana) || (x =? ExtendNumLet)) l = k13a (wb_of l).
Proof. apply one_kind; [reflexivity|k_ign|k_cls]. Qed.
Lemma two_AM l : cls_ok l -> two (fun m => (m =? MidLetter) || MidNumLetQ m) AHLetter l = kAM (wb_of l).
Proof. apply (two_kind _ _ kAM kA); [reflexivity|k_ign|k_cls|apply one_A]. Qed.
Lemma two_NM l : cls_ok l -> two (fun m => (m =? MidNum) || MidNumLetQ m) (Z.eqb Numeric) l = kNM (wb_of l).
Proof. apply (two_kind _ _ kNM kN); [reflexivity|k_ign|k_cls|apply one_N]. Qed.
Lemma two_HD l : cls_ok l -> two (Z.eqb Double_Quote) (Z.eqb Hebrew_Letter) l = kHD (wb_of l).
Proof. apply (two_kind _ _ kHD kH); [reflexivity|k_ign|k_cls|apply one_H]. Qed.
Lemma ri_kind : forall l, cls_ok l -> Nat.odd (ri_run l) = is_WR (wb_of l).
Proof.
  induction l as [|c t IH]; intros H; [reflexivity|].
  pose proof (Forall_inv H) as Hc. pose proof (Forall_inv_tail H) as Ht. specialize (IH Ht). cbn [wb_of ri_run]. rewrite extend_ign.
  destruct (ignored c) eqn:E.
  - rewrite IH. unfold wbnext. rewrite E. destruct (wb_of t); reflexivity.
  - destruct (Z.eqb_spec c RI) as [->|N].
    + rewrite Nat.odd_succ, <- Nat.negb_odd, IH. destruct (wb_of t); reflexivity.
    + change (Nat.odd 0) with false. clear IH. unfold classes in Hc.
      repeat (destruct Hc as [<-|Hc]; [first [discriminate E | exfalso; apply N; reflexivity | destruct (wb_of t); vm_compute; reflexivity]|]). contradiction.
Qed.

(* ---- late contributions ---- *)
Notation late := (tailsum wnext wpens).
Definition inert (b : wbase) (d : nat) : Prop :=
  match b with
  | WCR | WHD _ => (3 <= d)%nat
  | WAM m n | WNM m n => d <> (Z.to_nat (n - m) + 2)%nat
  | _ => True
  end.
Lemma nth_mid j d : nth d (repeat 0 j ++ [10000]) 0 = if (d =? j)%nat then 10000 else 0.
Proof.
  revert d. induction j as [|j IH]; intros [|d]; try reflexivity.
  - simpl. destruct d; reflexivity.
  - cbn [repeat app nth]. rewrite IH. reflexivity.
Qed.
Lemma inert_0 b prev c d : (2 <= d)%nat -> inert b d -> nth d (wpens (b, prev) c) 0 = 0.
Proof.
  intros Hd H. destruct d as [|[|d]]; try lia. unfold wpens. cbn [nth fst].
  destruct b; cbn [wtail inert] in *; try (destruct d; reflexivity).
  - destruct (c =? LF); destruct d; try reflexivity; try lia. destruct d; reflexivity.
  - destruct (ah c); [|destruct d; reflexivity]. rewrite nth_mid. destruct (Nat.eqb_spec d (Z.to_nat (n - m))); [lia|reflexivity].
  - destruct (c =? Numeric); [|destruct d; reflexivity]. rewrite nth_mid. destruct (Nat.eqb_spec d (Z.to_nat (n - m))); [lia|reflexivity].
  - destruct (c =? Hebrew_Letter); destruct d; try reflexivity; try lia. destruct d; reflexivity.
Qed.
(* the next state is inert, one position further back *)
Lemma inert_fresh b c d : (2 <= d)%nat -> wvalid b -> ignored c = false -> inert (wbnext b c) (S d).
Proof.
  intros Hd Hv E. unfold wbnext. rewrite E.
  repeat match goal with
  | |- inert (if ?x then _ else _) _ => destruct x
  | |- inert (match b with _ => _ end) _ => destruct b
  end; cbn [inert]; auto; try lia; replace (n + 1 - (n + 1)) with 0 by lia; simpl; lia.
Qed.
Lemma inert_next b c d : (2 <= d)%nat -> wvalid b -> inert b d -> inert (wbnext b c) (S d).
Proof.
  intros Hd Hv H. destruct (ignored c) eqn:E; [|now apply inert_fresh].
  unfold wbnext. rewrite E. destruct b; cbn [inert wvalid] in *; auto; try lia.
Qed.
Lemma late_inert : forall cs b prev d, (2 <= d)%nat -> wvalid b -> inert b d -> late (b, prev) cs d = 0.
Proof.
  induction cs as [|c t IH]; intros b prev d Hd Hv H; [reflexivity|]. cbn [tailsum]. rewrite inert_0 by auto.
  unfold wnext. cbn [fst]. rewrite IH; auto; try lia. - now apply wbnext_valid. - now apply inert_next.
Qed.

Lemma late_CR p cs : late (WCR, p) cs 2 = match cs with d :: _ => if d =? LF then 0 else -10000 | [] => 0 end.
Proof.
  destruct cs as [|d t]; [reflexivity|]. cbn [tailsum]. unfold wnext. cbn [fst].
  rewrite late_inert; try lia.
  - unfold wpens. cbn [nth fst wtail]. destruct (d =? LF); reflexivity.
  - apply wbnext_valid. exact I.
  - destruct (ignored d) eqn:E; [unfold wbnext; rewrite E; exact I|apply inert_fresh; auto; try lia]. exact I.
Qed.
Lemma late_HD n p cs : 2 <= n -> late (WHD n, p) cs 2 = match cs with d :: _ => if d =? Hebrew_Letter then 10000 else 0 | [] => 0 end.
Proof.
  intros Hn. destruct cs as [|d t]; [reflexivity|]. cbn [tailsum]. unfold wnext. cbn [fst].
  rewrite late_inert; try lia.
  - unfold wpens. cbn [nth fst wtail]. destruct (d =? Hebrew_Letter); reflexivity.
  - apply wbnext_valid. exact Hn.
  - destruct (ignored d) eqn:E; [unfold wbnext; rewrite E; cbn; lia|apply inert_fresh; auto; try lia].
Qed.
Lemma late_AM m : forall cs n p, 2 <= m <= n -> late (WAM m n, p) cs (Z.to_nat (n - m) + 2) = if one AHLetter cs then 10000 else 0.
Proof.
  induction cs as [|c t IH]; intros n p H; [reflexivity|]. cbn [tailsum]. unfold wnext. cbn [fst].
  destruct (ignored c) eqn:E.
  - unfold one. rewrite skip_ign by auto. fold (one AHLetter t).
    assert (A : ah c = false) by (unfold ignored in E; unfold ah; destruct (Z.eqb_spec c ALetter) as [->|]; [discriminate|]; destruct (Z.eqb_spec c Hebrew_Letter) as [->|]; [discriminate|reflexivity]).
    replace (wbnext (WAM m n) c) with (WAM m (n + 1)) by (unfold wbnext; rewrite E; reflexivity).
    replace (S (Z.to_nat (n - m) + 2)) with (Z.to_nat (n + 1 - m) + 2)%nat by lia. rewrite IH by lia.
    unfold wpens. cbn [fst wtail]. rewrite A. rewrite nth_overflow; [lia|simpl; lia].
  - unfold one. rewrite skip_not by auto. rewrite late_inert; try lia.
    + unfold wpens. rewrite Nat.add_comm. cbn [Nat.add nth fst wtail]. change (AHLetter c) with (ah c).
      destruct (ah c); [|destruct (Z.to_nat (n - m)); reflexivity]. rewrite nth_mid, Nat.eqb_refl. lia.
    + apply wbnext_valid. exact H.
    + apply inert_fresh; auto. lia.
Qed.
Lemma late_NM m : forall cs n p, 2 <= m <= n -> late (WNM m n, p) cs (Z.to_nat (n - m) + 2) = if one (Z.eqb Numeric) cs then 10000 else 0.
Proof.
  induction cs as [|c t IH]; intros n p H; [reflexivity|]. cbn [tailsum]. unfold wnext. cbn [fst].
  destruct (ignored c) eqn:E.
  - unfold one. rewrite skip_ign by auto. fold (one (Z.eqb Numeric) t).
    assert (A : (c =? Numeric) = false) by (unfold ignored in E; destruct (Z.eqb_spec c Numeric) as [->|]; [discriminate|reflexivity]).
    replace (wbnext (WNM m n) c) with (WNM m (n + 1)) by (unfold wbnext; rewrite E; reflexivity).
    replace (S (Z.to_nat (n - m) + 2)) with (Z.to_nat (n + 1 - m) + 2)%nat by lia. rewrite IH by lia.
    unfold wpens. cbn [fst wtail]. rewrite A. rewrite nth_overflow; [lia|simpl; lia].
  - unfold one. rewrite skip_not by auto. rewrite late_inert; try lia.
    + unfold wpens. rewrite Nat.add_comm. cbn [Nat.add nth fst wtail]. rewrite (Z.eqb_sym Numeric c).
      destruct (c =? Numeric); [|destruct (Z.to_nat (n - m)); reflexivity]. rewrite nth_mid, Nat.eqb_refl. lia.
    + apply wbnext_valid. exact H.
    + apply inert_fresh; auto. lia.
Qed.

(* all late contributions to the position before c *)
Definition later (b : wbase) (c : Z) (after : list Z) : Z :=
  match b with
  | WCR => match after with d :: _ => if d =? LF then 0 else -10000 | [] => 0 end
  | WHD _ => match after with d :: _ => if d =? Hebrew_Letter then 10000 else 0 | [] => 0 end
  | WAM _ _ => if ignored c then 0 else if one AHLetter after then 10000 else 0
  | WNM _ _ => if ignored c then 0 else if one (Z.eqb Numeric) after then 10000 else 0
  | _ => 0
  end.
Lemma late_eq b c after : wvalid b -> late (wbnext b c, c) after 2 = later (wbnext b c) c after.
Proof.
  intros Hv. pose proof (wbnext_valid b c Hv) as Hv'.
  destruct (wbnext b c) as [| | |n|n|n|n|n|n|m n|m n|n] eqn:Eb; cbn [later wvalid] in *; try (apply late_inert; cbn; auto; fail).
  - apply late_CR.
  - assert (En : ignored c = false -> m = n).
    { intros E. unfold wbnext in Eb. rewrite E in Eb. clear E. repeat match type of Eb with (if ?x then _ else _) = _ => destruct x; try discriminate Eb end.
      destruct b; try discriminate Eb; repeat match type of Eb with (if ?x then _ else _) = _ => destruct x; try discriminate Eb end; inversion Eb; auto. }
    destruct (ignored c) eqn:E.
    + apply late_inert; auto. cbn. unfold wbnext in Eb. rewrite E in Eb. destruct b; try discriminate. inversion Eb; subst. cbn in Hv. lia.
    + rewrite <- (late_AM m after n c) by lia. rewrite En by auto. replace (n - n) with 0 by lia. reflexivity.
  - assert (En : ignored c = false -> m = n).
    { intros E. unfold wbnext in Eb. rewrite E in Eb. clear E. repeat match type of Eb with (if ?x then _ else _) = _ => destruct x; try discriminate Eb end.
      destruct b; try discriminate Eb; repeat match type of Eb with (if ?x then _ else _) = _ => destruct x; try discriminate Eb end; inversion Eb; auto. }
    destruct (ignored c) eqn:E.
    + apply late_inert; auto. cbn. unfold wbnext in Eb. rewrite E in Eb. destruct b; try discriminate. inversion Eb; subst. cbn in Hv. lia.
    + rewrite <- (late_NM m after n c) by lia. rewrite En by auto. replace (n - n) with 0 by lia. reflexivity.
  - now apply late_HD.
Qed.

(* ---- the verdict on a position ---- *)
(* match lengths do not matter for the verdict *)
Definition kb (b : wbase) : wbase :=
  match b with
  | W0 => W0 | WCR => WCR | WSp => WSp | WA _ => WA 1 | WH _ => WH 1 | WN _ => WN 1 | WX _ => WX 1 | WK _ => WK 1 | WR _ => WR 1
  | WAM _ _ => WAM 2 2 | WNM _ _ => WNM 2 2 | WHD _ => WHD 2
  end.
Definition kbs : list wbase := [W0; WCR; WSp; WA 1; WH 1; WN 1; WX 1; WK 1; WR 1; WAM 2 2; WNM 2 2; WHD 2].
Lemma kb_in b : In (kb b) kbs.
Proof. destruct b; simpl; tauto. Qed.
Lemma kb_next b c : kb (wbnext b c) = kb (wbnext (kb b) c).
Proof.
  unfold wbnext. destruct b; cbn [kb is_WR]; repeat match goal with |- context [if ?x then _ else _] => destruct x end; reflexivity.
Qed.
(* verdict of the breaker and of the rules; the right context is known by: next letter, next
   number, Hebrew letter at once, and what follows CR *)
Definition says (b : wbase) (a c : Z) (x y z : bool) (w : Z) : bool :=
  let b1 := wbnext b a in let b2 := wbnext b1 c in
  ok_pen (wfirst b a + wsecond (b1, a) c +
    match b2 with
    | WCR => w | WHD _ => if z then 10000 else 0
    | WAM _ _ => if ignored c then 0 else if x then 10000 else 0
    | WNM _ _ => if ignored c then 0 else if y then 10000 else 0
    | _ => 0
    end).
Definition wants (b : wbase) (a c : Z) (x y z : bool) : bool :=
  let b1 := wbnext b a in
      if (a =? CR) && (c =? LF) then false
      else if newline a then true
      else if newline c then true
      else if (a =? ZWJ) && (c =? Pictographic) then false
      else if (a =? WSegSpace) && (c =? WSegSpace) then false
      else if extend c then false
      else if kA b1 && AHLetter c then false
      else if kA b1 && ((c =? MidLetter) || MidNumLetQ c) && x then false
      else if kAM b1 && AHLetter c then false
      else if kH b1 && (c =? Single_Quote) then false
      else if kH b1 && (c =? Double_Quote) && z then false
      else if kHD b1 && (c =? Hebrew_Letter) then false
      else if kN b1 && (c =? Numeric) then false
      else if kA b1 && (c =? Numeric) then false
      else if kN b1 && AHLetter c then false
      else if kNM b1 && (c =? Numeric) then false
      else if kN b1 && ((c =? MidNum) || MidNumLetQ c) && y then false
      else if kK b1 && (c =? Katakana) then false
      else if k13a b1 && (c =? ExtendNumLet) then false
      else if kX b1 && (AHLetter c || (c =? Numeric) || (c =? Katakana)) then false
      else if (c =? RI) && is_WR b1 then false
      else true.
Lemma all_agree :
  forallb (fun b => forallb (fun a => forallb (fun c => forallb (fun x => forallb (fun y => forallb (fun z => forallb (fun w =>
    Bool.eqb (says b a c x y z w) (wants b a c x y z)) [0; -10000]) [true; false]) [true; false]) [true; false]) classes) classes) kbs = true.
Proof. vm_compute. reflexivity. Qed.
Lemma says_kb b a c x y z w : says b a c x y z w = says (kb b) a c x y z w.
Proof.
  unfold says. cbn zeta.
  assert (E1 : wfirst (kb b) a = wfirst b a) by (destruct b; reflexivity).
  assert (E2 : forall u v p, kb u = kb v -> wsecond (u, p) c = wsecond (v, p) c).
  { intros u v p E. unfold wsecond. cbn [fst snd]. replace (wjoin u c) with (wjoin v c); [reflexivity|]. destruct u, v; try discriminate E; reflexivity. }
  rewrite E1. rewrite (E2 (wbnext (kb b) a) (wbnext b a)) by (rewrite (kb_next b a); reflexivity).
  f_equal. f_equal.
  assert (E3 : kb (wbnext (wbnext b a) c) = kb (wbnext (wbnext (kb b) a) c)) by (rewrite kb_next, (kb_next b a), <- kb_next; reflexivity).
  destruct (wbnext (wbnext b a) c), (wbnext (wbnext (kb b) a) c); try discriminate E3; reflexivity.
Qed.
Lemma wants_kb b a c x y z : wants b a c x y z = wants (kb b) a c x y z.
Proof.
  unfold wants. cbn zeta. pose proof (kb_next b a) as E. destruct (wbnext b a), (wbnext (kb b) a); try discriminate E; reflexivity.
Qed.
Lemma agree b a c x y z w : In a classes -> In c classes -> w = 0 \/ w = -10000 -> says b a c x y z w = wants b a c x y z.
Proof.
  intros Ha Hc Hw. rewrite says_kb, wants_kb. pose proof all_agree as H. pose proof (kb_in b) as Hb.
  rewrite forallb_forall in H. specialize (H _ Hb).
  rewrite forallb_forall in H. specialize (H _ Ha).
  rewrite forallb_forall in H. specialize (H _ Hc).
  assert (B2 : forall v : bool, In v [true; false]) by (intros []; simpl; auto).
  rewrite forallb_forall in H. specialize (H _ (B2 x)).
  rewrite forallb_forall in H. specialize (H _ (B2 y)).
  rewrite forallb_forall in H. specialize (H _ (B2 z)).
  rewrite forallb_forall in H. specialize (H w ltac:(destruct Hw; subst; simpl; auto)).
  now apply Bool.eqb_prop in H.
Qed.

Lemma verdict before a c after : cls_ok before -> In a classes -> In c classes ->
  ok_pen (wfirst (wb_of before) a + wsecond (wb_of (a :: before), a) c + later (wb_of (c :: a :: before)) c after) =
  wb_boundary true (a :: before) (c :: after).
Proof.
  intros Hb Ha Hc. unfold wb_boundary.
  assert (Hl : cls_ok (a :: before)) by (constructor; auto).
  rewrite !(one_A _ Hl), !(one_H _ Hl), !(one_N _ Hl), (one_K _ Hl), (one_X _ Hl), (one_13a _ Hl), (two_AM _ Hl), (two_NM _ Hl), (two_HD _ Hl), (ri_kind _ Hl).
  cbn [wb_of].
  transitivity (says (wb_of before) a c (one AHLetter after) (one (Z.eqb Numeric) after)
    (match after with d :: _ => d =? Hebrew_Letter | [] => false end)
    (match after with d :: _ => if d =? LF then 0 else -10000 | [] => 0 end)).
  - unfold says, later. cbn zeta. f_equal. f_equal.
    destruct (wbnext (wbnext (wb_of before) a) c); try reflexivity. destruct after as [|d t]; reflexivity.
  - rewrite agree; auto.
    destruct after as [|d t]; [auto|]. destruct (d =? LF); auto.
Qed.
Lemma verdict_CR b a w : In a classes -> w = 0 \/ w = -10000 -> ok_pen (wfirst b a + wsecond (wbnext b a, a) CR + w) = true.
Proof.
  intros Ha Hw. pose proof (agree b a CR false false false w Ha ltac:(simpl; auto) Hw) as H.
  replace (wants b a CR false false false) with true in H.
  - rewrite <- H. unfold says. reflexivity.
  - unfold wants. cbn zeta. change (CR =? LF) with false. rewrite andb_false_r. change (newline CR) with true. destruct (newline a); reflexivity.
Qed.

(* the end of text behind the right context makes no difference *)
Lemma boundary_eot adj left right : cls_ok left -> left <> [] ->
  wb_boundary adj left (right ++ [eot]) = match right with [] => true | _ => wb_boundary adj left right end.
Proof.
  intros Hl Hn. destruct left as [|a before]; [congruence|]. destruct right as [|c after].
  - cbn [app]. unfold wb_boundary.
    change (eot =? LF) with false. change (newline eot) with false. change (eot =? Pictographic) with false. change (eot =? WSegSpace) with false.
    change (extend eot) with false. change (AHLetter eot) with false. change ((eot =? MidLetter) || MidNumLetQ eot) with false.
    change (eot =? Single_Quote) with false. change (eot =? Double_Quote) with false. change (eot =? Hebrew_Letter) with false.
    change (eot =? Numeric) with false. change ((eot =? MidNum) || MidNumLetQ eot) with false. change (eot =? Katakana) with false.
    change (eot =? ExtendNumLet) with false. change (eot =? RI) with false. rewrite ?andb_false_r. cbn [andb orb]. rewrite ?andb_false_r.
    destruct (newline a); reflexivity.
  - assert (O : forall P, P eot = false -> one P (after ++ [eot]) = one P after).
    { intros P HP. unfold one. induction after as [|d t IH]; cbn [app skip].
      - change (extend eot) with false. exact HP.
      - destruct (extend d); auto. }
    cbn [app]. unfold wb_boundary. rewrite !O by reflexivity.
    replace (match after ++ [eot] with d :: _ => d =? Hebrew_Letter | [] => false end) with (match after with d :: _ => d =? Hebrew_Letter | [] => false end)
      by (destruct after; reflexivity). reflexivity.
Qed.

Section Text.
Context (table : Z -> Z -> bool) (pict : Z -> bool).
Notation cls := (CodePointClassFor table pict).
Notation step := (wb_step table pict).

Lemma cls_range r : In (cls r) classes.
Proof.
  unfold CodePointClassFor, ClassForRune. destruct (r =? 0); [simpl; tauto|].
  destruct (find _ _) as [c|] eqn:F.
  - apply find_some in F. destruct F as [F _]. destruct ((c =? Other) && pict r); unfold classes; simpl in *; unfold Pictographic; tauto.
  - simpl. destruct (pict r); simpl; tauto.
Qed.
Lemma cls_all l : cls_ok (map cls l).
Proof. apply Forall_forall. intros c Hc. apply in_map_iff in Hc. destruct Hc as (r & <- & _). apply cls_range. Qed.

Notation wrows := (rows wnext wlam wpens).
Lemma answers_rows : forall rs b st, wvalid (fst st) -> in_state b st -> answers step (Some b) rs = wrows st (map cls rs).
Proof.
  induction rs as [|r t IH]; intros b st Hv Hs; [reflexivity|]. cbn [answers map rows].
  destruct (WordProofs.round b st r (cls r) Hv (cls_range r) Hs) as (b' & E & S').
  assert (X : step (Some b) r = (Some b', wlam (wnext st (cls r)), wpens st (cls r))).
  { unfold wb_step. cbn [obind]. rewrite E. reflexivity. }
  rewrite X. cbn [fst snd]. f_equal. apply IH; auto. cbn [wnext fst]. now apply wbnext_valid.
Qed.
Lemma new_state : in_state NewWordBreaker (W0, 0).
Proof. split; [exists [], []; repeat split; constructor|]. split; [exists 0, 0; reflexivity|reflexivity]. Qed.
Lemma answers_new rs : answers step (Some NewWordBreaker) rs = wrows (W0, 0) (map cls rs).
Proof. apply answers_rows; [exact I|apply new_state]. Qed.

Lemma run_state : forall cs, run wnext (W0, 0) cs = (wb_of (rev cs), hd 0 (rev cs)).
Proof.
  induction cs as [|c cs IH] using rev_ind; [reflexivity|]. rewrite run_app, IH, rev_app_distr. reflexivity.
Qed.

Section OneText.
Context (rs : list Z).
Let cs := map cls (rs ++ [0]).
Let an := wrows (W0, 0) cs.
Lemma cs_len : length cs = S (length rs).
Proof. unfold cs. rewrite map_length, app_length. simpl. lia. Qed.
Lemma cs_eq : cs = map cls rs ++ [eot].
Proof. unfold cs. rewrite map_app. reflexivity. Qed.
Lemma an_len : length an = S (length rs).
Proof. unfold an. rewrite rows_len. apply cs_len. Qed.
Lemma wmatrix : matrix step [Some NewWordBreaker] (rs ++ [0]) = map row1 an.
Proof. rewrite matrix_one, answers_new. reflexivity. Qed.
Lemma cs_in i : (i < length cs)%nat -> In (nth i cs 0) classes.
Proof. intros H. pose proof (cls_all (rs ++ [0])) as X. unfold cls_ok in X. fold cs in X. rewrite Forall_forall in X. apply X. now apply nth_In. Qed.
Lemma cs_firstn_ok i : cls_ok (rev (firstn i cs)).
Proof.
  apply Forall_rev. apply Forall_forall. intros c Hc. pose proof (cls_all (rs ++ [0])) as X. unfold cls_ok in X. fold cs in X. rewrite Forall_forall in X.
  apply X. rewrite <- (firstn_skipn i cs). apply in_or_app. auto.
Qed.
Lemma skipn_cons (l : list Z) : forall i, (i < length l)%nat -> skipn i l = nth i l 0 :: skipn (S i) l.
Proof. induction l as [|x l IH]; intros i Hi; [simpl in Hi; lia|]. destruct i; [reflexivity|]. apply IH. simpl in Hi. lia. Qed.
Lemma rev_firstn_S (l : list Z) i : (i < length l)%nat -> rev (firstn (S i) l) = nth i l 0 :: rev (firstn i l).
Proof.
  intros H. assert (E : firstn (S i) l = firstn i l ++ [nth i l 0]).
  { revert i H. induction l as [|x l IH]; intros i Hi; [simpl in Hi; lia|]. destruct i; [reflexivity|].
    change (firstn (S (S i)) (x :: l)) with (x :: firstn (S i) l). rewrite IH by (simpl in Hi; lia). reflexivity. }
  rewrite E, rev_app_distr. reflexivity.
Qed.

Section Width.
Context (w : nat) (Hw : Forall (fun a : answer => (length (snd a) <= w)%nat) an).
Lemma total_pos i : (S i < length cs)%nat ->
  let B := wb_of (rev (firstn i cs)) in let a := nth i cs 0 in let c := nth (S i) cs 0 in
  total an w i = wfirst B a + wsecond (wbnext B a, a) c + later (wbnext (wbnext B a) c) c (skipn (S (S i)) cs).
Proof.
  intros Hi. cbn zeta. unfold an. rewrite total_rows by exact Hw. rewrite run_state.
  rewrite (skipn_cons cs i), (skipn_cons cs (S i)) by lia. cbn [tailsum].
  unfold wnext at 1 2 3. cbn [fst snd].
  rewrite late_eq by (apply wbnext_valid, wb_valid). unfold wpens, wnext. cbn [nth fst snd]. lia.
Qed.
Lemma total_verdict i : (S i < length cs)%nat -> ok_pen (total an w i) = wb_boundary true (rev (firstn (S i) cs)) (skipn (S i) cs).
Proof.
  intros Hi. rewrite total_pos by auto. cbn zeta. rewrite (skipn_cons cs (S i)), rev_firstn_S by lia.
  apply (verdict (rev (firstn i cs)) (nth i cs 0) (nth (S i) cs 0) (skipn (S (S i)) cs)); try (apply cs_in; lia). apply cs_firstn_ok.
Qed.

Lemma wsettled k i : (1 <= k < length an)%nat -> (i < k)%nat -> Z.of_nat i < Z.of_nat k - Z.max (fst (nth (k - 1) an (0, []))) 0 ->
  ((S i < k)%nat -> ok_pen (total (firstn k an) w i) = ok_pen (total an w i)) /\
  (S i = k -> ok_pen (total (firstn k an) w i) = true -> ok_pen (total an w i) = true).
Proof.
  intros Hk Hi Hs. rewrite an_len in Hk. pose proof cs_len as Lc.
  assert (El : nth (k - 1) an (0, []) = (wlam (run wnext (W0, 0) (firstn k cs)), snd (nth (k - 1) an (0, [])))).
  { unfold an. rewrite rows_nth by lia. replace (S (k - 1)) with k by lia. reflexivity. }
  rewrite El in Hs. clear El. cbn [fst] in Hs. rewrite run_state in Hs.
  set (st := wb_of (rev (firstn k cs))) in *.
  assert (Lm : base_len st < Z.of_nat (k - i)) by (unfold wlam in Hs; cbn [fst snd] in Hs; lia).
  pose proof (wb_valid (rev (firstn k cs))) as Vs. fold st in Vs.
  split.
  - intros Hik. unfold an. rewrite (total_more wnext wlam wpens cs (W0, 0) w i k) by (try lia; exact Hw). fold an.
    rewrite run_state. fold st.
    assert (Hin : inert st (k - i) \/ (st = WCR /\ k = S (S i))).
    { destruct st; cbn [inert base_len wvalid] in *; auto; try lia.
      destruct (le_lt_dec 3 (k - i)); [auto|right; split; auto; lia]. }
    destruct Hin as [Hin|[E2 E3]].
    + rewrite late_inert by (auto; lia). now rewrite Z.add_0_r.
    + (* the position before a CR *)
      assert (Tk : total (firstn k an) w i = wfirst (wb_of (rev (firstn i cs))) (nth i cs 0) + wsecond (wbnext (wb_of (rev (firstn i cs))) (nth i cs 0), nth i cs 0) (nth (S i) cs 0)).
      { unfold an. rewrite total_prefix by exact Hw. rewrite run_state, firstn_firstn. replace (Nat.min i k) with i by lia.
        rewrite (skipn_cons (firstn k cs) i), (skipn_cons (firstn k cs) (S i)) by (rewrite firstn_length; lia).
        rewrite !nth_firstn by lia. rewrite (skipn_all2 (n := S (S i)) (firstn k cs)) by (rewrite firstn_length; lia).
        cbn [tailsum]. unfold wnext at 1. cbn [fst snd]. unfold wpens. cbn [nth fst snd]. lia. }
      assert (Ec : nth (S i) cs 0 = CR).
      { unfold st in E2. rewrite E3 in E2. rewrite rev_firstn_S in E2 by lia. cbn [wb_of] in E2.
        pose proof (cs_in (S i) ltac:(lia)) as X. revert E2. generalize (nth (S i) cs 0), (wb_of (rev (firstn (S i) cs))), X. intros c b Hc.
        unfold wbnext. destruct (ignored c); [destruct b; discriminate|]. destruct (Z.eqb_spec c CR) as [->|]; [reflexivity|].
        repeat match goal with |- (if ?x then _ else _) = _ -> _ => destruct x; [try discriminate|] end; try (destruct (is_WR b); discriminate).
        destruct b; try discriminate; repeat match goal with |- (if ?x then _ else _) = _ -> _ => destruct x; try discriminate end. }
      rewrite Tk, Ec. rewrite <- (Z.add_0_r (wfirst _ _ + wsecond _ _)) at 1.
      assert (Ai : In (nth i cs 0) classes) by (apply cs_in; lia).
      rewrite (verdict_CR _ _ 0 Ai) by auto. symmetry. rewrite E2, E3. replace (S (S i) - i)%nat with 2%nat by lia. rewrite late_CR.
      apply verdict_CR; auto. destruct (skipn (S (S i)) cs) as [|d t]; auto. destruct (d =? LF); auto.
  - intros Eik Hp. rewrite total_verdict by lia. rewrite rev_firstn_S by lia.
    unfold an in Hp. rewrite total_prefix in Hp by exact Hw. rewrite firstn_firstn in Hp. replace (Nat.min i k) with i in Hp by lia.
    rewrite (skipn_cons (firstn k cs) i) in Hp by (rewrite firstn_length; lia). rewrite (skipn_all2 (n := S i) (firstn k cs)) in Hp by (rewrite firstn_length; lia).
    rewrite nth_firstn in Hp by lia. cbn [tailsum] in Hp. rewrite run_state in Hp. unfold wpens in Hp. cbn [nth fst] in Hp. rewrite Z.add_0_r in Hp.
    assert (Na : newline (nth i cs 0) = true /\ (nth i cs 0 =? CR) = false).
    { revert Hp. generalize (nth i cs 0), (wb_of (rev (firstn i cs))). intros a b. unfold wfirst, newline, ok_pen.
      destruct (Z.eqb_spec a LF) as [->|]; [split; reflexivity|]. destruct (Z.eqb_spec a Newline) as [->|]; [split; reflexivity|]. cbn [orb].
      destruct b; discriminate. }
    destruct Na as [N1 N2]. rewrite (skipn_cons cs (S i)) by lia. unfold wb_boundary. rewrite N1, N2. reflexivity.
Qed.
Lemma wconforming : weakly_conforming (breakable (false, false) false) (inputs rs) (map row1 an).
Proof. apply (weakly_conforming_one rs an w); [apply an_len|exact Hw|]. exact wsettled. Qed.
Lemma wverdict j : (j < length rs)%nat ->
  breakable (false, false) false (eff (inputs rs) (map row1 an) j) =
  match skipn (S j) rs with [] => true | t => wb_break true cls (rev (firstn (S j) rs)) t end.
Proof.
  intros Hj. pose proof cs_len. rewrite (test_pos rs an w); [|exact Hw|auto]. rewrite total_verdict by lia.
  rewrite cs_eq. rewrite firstn_app, skipn_app. rewrite map_length. replace (S j - length rs)%nat with 0%nat by lia. rewrite firstn_O, skipn_O, app_nil_r.
  rewrite firstn_map, skipn_map, <- map_rev. rewrite boundary_eot.
  - unfold wb_break. destruct (skipn (S j) rs); reflexivity.
  - apply cls_all.
  - intros X. apply (f_equal (@length _)) in X. rewrite map_length, rev_length, firstn_length in X. cbn [length] in X. lia.
Qed.
End Width.

Lemma an_ne : an <> [].
Proof. intros X. pose proof an_len as L. rewrite X in L. discriminate. Qed.
Lemma wlast : last an (0, []) = (wlam (wnext (run wnext (W0, 0) (map cls rs)) eot), wpens (run wnext (W0, 0) (map cls rs)) eot).
Proof.
  unfold an. rewrite cs_eq. generalize (W0, 0) as st. induction (map cls rs) as [|c t IH]; intros st; [reflexivity|].
  cbn [app rows]. change (run wnext st (c :: t)) with (run wnext (wnext st c) t). rewrite <- IH.
  destruct (rows wnext wlam wpens (wnext st c) (t ++ [eot])) eqn:E; [|reflexivity].
  apply (f_equal (@length _)) in E. rewrite rows_len, app_length in E. simpl in E. lia.
Qed.
Lemma weot_safe : eot_safe (map row1 an).
Proof.
  unfold eot_safe. rewrite (last_one an an_ne), wlast. cbn [prim sec row1 tl map fold_right snd wpens nth].
  split; [|lia]. unfold wfirst. destruct (fst _); vm_compute; discriminate.
Qed.
Lemma wlast1 : longest (last (map row1 an) []) <= 1.
Proof.
  rewrite (last_one an an_ne), wlast, longest_one. cbn [fst]. generalize (run wnext (W0, 0) (map cls rs)). intros [b p].
  unfold wlam, wnext. cbn [fst snd]. destruct b; cbn; lia.
Qed.
End OneText.

Lemma word_slice text n : zlen text < MaxInt -> (length text + 1 < n)%nat ->
  exists s1 outs s', InitFromSlice deque_ops text (NewSegmenter [Some NewWordBreaker]) = Ok s1 /\
    loop deque_ops step n s1 = Ok (outs, true, s') /\ map fst outs = segmentation (wb_break true cls) text /\ Err s' = None.
Proof.
  intros Tt Hn. destruct (rows_width wnext wlam wpens (map cls (text ++ [0])) (W0, 0)) as [w Hw].
  apply weak_slice_segmentation; auto; rewrite wmatrix.
  - apply (wconforming text w Hw). - apply weot_safe. - apply wlast1. - apply (wverdict text w Hw).
Qed.
Lemma word_reader its n : Forall (fun it => 1 <= snd it) its -> sizes its < MaxInt -> (length its + 1 < n)%nat ->
  exists s1 outs s', Init deque_ops (mkrd its EOF) (NewSegmenter [Some NewWordBreaker]) = Ok s1 /\
    loop deque_ops step n s1 = Ok (outs, true, s') /\
    map fst outs = map (firstn (Z.to_nat 4096)) (segmentation (wb_break true cls) (map fst its)) /\ Err s' = None.
Proof.
  intros Sz Tt Hn. set (text := map fst its).
  destruct (rows_width wnext wlam wpens (map cls (text ++ [0])) (W0, 0)) as [w Hw].
  apply weak_reader_segmentation; auto; rewrite wmatrix.
  - apply (wconforming text w Hw). - apply weot_safe. - apply wlast1. - apply (wverdict text w Hw).
Qed.
End Text.
