(* SimpleWordProofs.v -- the simple word breaker obeys the breakers' contract and marks exactly the
   ends of maximal runs. *)
From Coq Require Import List ZArith Lia Bool.
From Verif Require Import Base Segmenter SegSpec SegProofs SegInv SegCut SegNext SegFacade SimpleWord.
Import ListNotations.
Open Scope Z_scope.

(* ---- matrices in general ---- *)
Definition follows (a b : list answer) : Prop :=
  longest b <= longest a + 1 /\ (forall i, longest a < Z.of_nat i -> prim b i = 0 /\ sec b i = 0).
Lemma obeys_cons a m : (forall b, hd_error m = Some b -> follows a b) -> obeys m -> obeys (a :: m).
Proof.
  intros H1 H2 [|j] L; simpl in L.
  - destruct m as [|b m]; [simpl in L; lia|]. exact (H1 b eq_refl).
  - apply (H2 j). lia.
Qed.
Lemma obeys_nil : obeys [].
Proof. intros j L. simpl in L. lia. Qed.
Lemma obeys_tail a m : obeys (a :: m) -> obeys m.
Proof. intros H j L. apply (H (S j)). simpl. lia. Qed.

Lemma column_shift g o m i : column g (o :: m) (S i) = column g m i.
Proof.
  unfold column. cbn [length]. replace (S (length m) - S i)%nat with (length m - i)%nat by lia.
  rewrite <- seq_shift, map_map. reflexivity.
Qed.
Lemma column_head g o m : column g (o :: m) 0 =
  g o 0%nat + fold_right Z.add 0 (map (fun k => g (nth k m []) (S k)) (seq 0 (length m))).
Proof.
  unfold column. cbn [length Nat.sub seq map fold_right]. f_equal.
  rewrite <- seq_shift, map_map. reflexivity.
Qed.

Definition only1 (m : list (list answer)) : Prop := forall o j, In o m -> j <> 1%nat -> prim o j = 0.
Lemma sum_zero {A} (g : A -> Z) l : (forall x, In x l -> g x = 0) -> fold_right Z.add 0 (map g l) = 0.
Proof. induction l; intros H; simpl; auto. rewrite H, IHl; simpl; auto. intros; apply H; simpl; auto. Qed.
Lemma only1_head o m : only1 (o :: m) -> column prim (o :: m) 0 = prim (nth 0 m []) 1.
Proof.
  intros H. rewrite column_head, (H o 0%nat) by (simpl; auto). destruct m as [|b m]; simpl; auto.
  rewrite <- seq_shift, map_map, sum_zero; [lia|]. intros x Hx. apply in_seq in Hx.
  destruct (nth_in_or_default x m []) as [I|E]; [|cbn [nth]; rewrite E; reflexivity].
  apply H; [simpl; auto|lia].
Qed.
Lemma effs_cons a ins o m : effs (a :: ins) (o :: m) =
  mkatom (ar a) (ap0 a + column prim (o :: m) 0) (ap1 a + column sec (o :: m) 0) :: effs ins m.
Proof.
  unfold effs. cbn [length seq map]. f_equal. rewrite <- seq_shift, map_map. apply map_ext. intros i.
  unfold eff. cbn [nth]. now rewrite !column_shift.
Qed.
Lemma reach_full m : m <> [] -> longest (last m []) = 0 -> reach m = length m.
Proof.
  intros H1 H2. pose proof (reach_le m). pose proof (reach_ge m (length m)).
  assert (1 <= length m)%nat by (destruct m; [congruence|simpl; lia]).
  unfold settled in *. rewrite last_nth in H2. rewrite H2 in *. lia.
Qed.
(* with an active match of at most one rune at the end, everything but the end marker is decided *)
Lemma reach_last m : m <> [] -> longest (last m []) <= 1 -> (length m - 1 <= reach m)%nat.
Proof.
  intros H1 H2. pose proof (reach_ge m (length m)).
  assert (1 <= length m)%nat by (destruct m; [congruence|simpl; lia]).
  unfold settled in *. rewrite last_nth in H2. lia.
Qed.

Section SWB.
Context (isSpace : Z -> bool) (space0 : isSpace 0 = false).
Notation step := (swb_step isSpace).

(* ---- specification: maximal runs ---- *)
Fixpoint runs (l : list Z) : list (list Z) :=
  match l with
  | [] => []
  | r :: t => match runs t with
              | (r' :: w) :: ws => if Bool.eqb (isSpace r) (isSpace r') then (r :: r' :: w) :: ws
                                   else [r] :: (r' :: w) :: ws
              | ws => [r] :: ws
              end
  end.
Definition pen_of (r : Z) : Z := if isSpace r then -100 else 100.
Definition run_out (w : list Z) : list Z * (Z * Z) := (w, (pen_of (hd 0 w), 0)).

Lemma runs_hd r t : exists w ws, runs (r :: t) = (r :: w) :: ws.
Proof. cbn [runs]. destruct (runs t) as [|[|r' w] ws]; [eauto|eauto|]. destruct (Bool.eqb _ _); eauto. Qed.
Lemma runs_cons r r' t w ws : runs (r' :: t) = (r' :: w) :: ws ->
  runs (r :: r' :: t) = if Bool.eqb (isSpace r) (isSpace r') then (r :: r' :: w) :: ws else [r] :: (r' :: w) :: ws.
Proof. intros E. change (runs (r :: r' :: t)) with (match runs (r' :: t) with
  | (r' :: w) :: ws => if Bool.eqb (isSpace r) (isSpace r') then (r :: r' :: w) :: ws else [r] :: (r' :: w) :: ws
  | ws => [r] :: ws end). now rewrite E. Qed.

(* runs is what it should be: a partition into non-empty uniform runs, neighbours differ *)
Lemma runs_concat l : concat (runs l) = l.
Proof.
  induction l as [|r t IH]; auto. destruct t as [|r' t]; auto.
  destruct (runs_hd r' t) as (w & ws & E). rewrite (runs_cons r r' t w ws E). rewrite E in IH.
  destruct (Bool.eqb _ _); simpl in *; now rewrite IH.
Qed.
Lemma runs_uniform l : Forall (fun w => w <> [] /\ Forall (fun r => isSpace r = isSpace (hd 0 w)) w) (runs l).
Proof.
  induction l as [|r t IH]; [constructor|]. destruct t as [|r' t].
  - constructor; [|constructor]. split; [discriminate|]. constructor; auto.
  - destruct (runs_hd r' t) as (w & ws & E). rewrite (runs_cons r r' t w ws E). rewrite E in IH. inversion IH as [|? ? [_ U] I2]; subst. simpl in U.
    destruct (Bool.eqb (isSpace r) (isSpace r')) eqn:Q.
    + apply Bool.eqb_prop in Q. constructor; auto. split; [discriminate|]. simpl. constructor; auto. rewrite Q. auto.
    + constructor; [split; [discriminate|repeat constructor]|]. constructor; auto. split; [discriminate|auto].
Qed.
Fixpoint alternating (ws : list (list Z)) : Prop :=
  match ws with
  | w :: (v :: _) as t => isSpace (hd 0 w) <> isSpace (hd 0 v) /\ alternating t
  | _ => True
  end.
Lemma runs_alternate l : alternating (runs l).
Proof.
  induction l as [|r t IH]; [exact I|]. destruct t as [|r' t]; [exact I|].
  destruct (runs_hd r' t) as (w & ws & E). rewrite (runs_cons r r' t w ws E). rewrite E in IH.
  destruct (Bool.eqb (isSpace r) (isSpace r')) eqn:Q.
  - apply Bool.eqb_prop in Q. destruct ws; [exact I|]. cbn in IH |- *. rewrite Q. auto.
  - split; auto. simpl. intros X. rewrite X, Bool.eqb_reflx in Q. discriminate.
Qed.

(* ---- the breaker's rows ---- *)
Definition penb (b : bool) : Z := if b then -100 else 100.
Fixpoint rows (b : bool) (n : Z) (l : list Z) : list (list answer) :=
  match l with
  | [] => [[(0, [0; penb b])]]
  | r :: t => if Bool.eqb (isSpace r) b then [(n + 1, [])] :: rows b (n + 1) t
              else [(1, [0; penb b])] :: rows (isSpace r) 1 t
  end.
Definition ty (b : bool) : Z := if b then spaceType else wordType.

Lemma matrix_rows : forall l b n p wl, Forall (fun r => r <> 0) l -> wl (ty b) = n -> 0 < n -> wl eofType = 0 ->
  matrix step [mkswb p wl (ty b)] (l ++ [0]) = rows b n l.
Proof.
  induction l as [|r t IH]; intros b n p wl NZ Hn Pn He.
  - cbn. unfold swb_step, CodePointClassFor, ProceedWithRune, LongestActiveMatch. rewrite space0. cbn.
    rewrite He, Hn. destruct b; cbn; rewrite Z.gtb_ltb; (destruct (Z.ltb_spec 0 n); [|lia]); reflexivity.
  - inversion NZ as [|? ? Nr NZ']; subst. cbn [app matrix rows].
    assert (C : CodePointClassFor isSpace r = ty (isSpace r)).
    { unfold CodePointClassFor, ty. destruct (isSpace r); auto. destruct (Z.eqb_spec r 0); [contradiction|auto]. }
    unfold bs_out, bs_next. cbn [map]. unfold swb_step. rewrite C.
    unfold ProceedWithRune. cbn [wtype wpen wlen].
    destruct (Z.eqb_spec r 0); [contradiction|]. cbn [negb andb].
    destruct (Bool.eqb (isSpace r) b) eqn:E.
    + apply Bool.eqb_prop in E. rewrite E, Z.eqb_refl. cbn [fst snd].
      unfold LongestActiveMatch. cbn [wlen wtype wpen]. unfold upd at 1. rewrite Z.eqb_refl.
      f_equal. apply IH; auto; unfold upd; rewrite ?Z.eqb_refl; try lia.
      destruct b; cbn; auto.
    + assert (X : (ty (isSpace r) =? ty b) = false) by (destruct (isSpace r), b; try discriminate; reflexivity).
      rewrite X. cbn [negb andb fst snd]. unfold LongestActiveMatch. cbn [wlen wtype wpen].
      rewrite Z.gtb_ltb. destruct (Z.ltb_spec 0 (wl (ty b))); [|lia].
      unfold upd at 1. rewrite Z.eqb_refl. f_equal.
      { unfold penb, ty. destruct b; reflexivity. }
      apply IH; auto; unfold upd; rewrite ?Z.eqb_refl; try lia.
      destruct (isSpace r), b; cbn; auto.
Qed.

Definition first_rows (rs : list Z) : list (list answer) :=
  match rs with [] => [[(0, [])]] | r :: t => [(1, [])] :: rows (isSpace r) 1 t end.
Lemma matrix_first rs : Forall (fun r => r <> 0) rs ->
  matrix step [NewSimpleWordBreaker] (rs ++ [0]) = first_rows rs.
Proof.
  intros NZ. destruct rs as [|r t].
  - cbn. unfold swb_step, CodePointClassFor. rewrite space0. reflexivity.
  - inversion NZ as [|? ? Nr NZ']; subst. cbn [app matrix first_rows].
    assert (St : exists wl, step NewSimpleWordBreaker r = (mkswb [] wl (ty (isSpace r)), 1, []) /\ wl (ty (isSpace r)) = 1 /\ wl eofType = 0).
    { unfold swb_step, CodePointClassFor, ProceedWithRune, NewSimpleWordBreaker. cbn [wtype wpen wlen].
      destruct (Z.eqb_spec r 0); [contradiction|]. destruct (isSpace r); cbn; eexists; (split; [reflexivity|]); cbn; auto. }
    destruct St as (wl & St & W1 & W2). unfold bs_out, bs_next. cbn [map]. rewrite St. cbn [fst snd]. f_equal.
    apply matrix_rows; auto. lia.
Qed.

Lemma rows_cons_ok : forall l b n, 0 < n -> obeys (rows b n l) /\
  (forall x, hd_error (rows b n l) = Some x -> longest x <= n + 1 /\ (forall i, n < Z.of_nat i -> prim x i = 0 /\ sec x i = 0)) /\
  only1 (rows b n l) /\ (forall o j, In o (rows b n l) -> sec o j = 0) /\ longest (last (rows b n l) []) = 0 /\
  length (rows b n l) = S (length l).
Proof.
  assert (P1 : forall x y j, j <> 1%nat -> prim [(x, [0; y])] j = 0).
  { intros x y [|[|[|j]]] H; simpl; auto; congruence. }
  assert (P0 : forall x j, prim [(x, [])] j = 0) by (intros x [|j]; reflexivity).
  assert (L1 : forall x p, 0 <= x -> longest [(x, p)] = x) by (intros; unfold longest; simpl; lia).
  assert (S1 : forall x p j, sec [(x, p)] j = 0) by reflexivity.
  induction l as [|r t IH]; intros b n Pn.
  - cbn [rows]. split; [apply obeys_cons; [discriminate|apply obeys_nil]|]. split.
    { intros x E. inversion E; subst. rewrite L1 by lia. split; [lia|]. intros i Hi. split; [apply P1; lia|auto]. }
    split. { intros o j [<-|[]] Hj. now apply P1. }
    split; [intros o j [<-|[]]; auto|]. split; [apply L1; lia|reflexivity].
  - cbn [rows]. destruct (Bool.eqb (isSpace r) b).
    + destruct (IH b (n + 1) ltac:(lia)) as (I1 & I2 & I3 & I4 & I5 & I6).
      split; [apply obeys_cons; auto; intros x Hx; unfold follows; rewrite L1 by lia; now apply I2|].
      split. { intros x E. inversion E; subst. rewrite L1 by lia. split; [lia|]. intros. rewrite P0. auto. }
      split. { intros o j [<-|Ho] Hj; auto. }
      split. { intros o j [<-|Ho]; auto. }
      split; [destruct (rows b (n + 1) t); [simpl in I6; lia|exact I5]|cbn; now rewrite I6].
    + destruct (IH (isSpace r) 1 ltac:(lia)) as (I1 & I2 & I3 & I4 & I5 & I6).
      split; [apply obeys_cons; auto; intros x Hx; unfold follows; rewrite L1 by lia; now apply I2|].
      split. { intros x E. inversion E; subst. rewrite L1 by lia. split; [lia|]. intros. split; [apply P1; lia|auto]. }
      split. { intros o j [<-|Ho] Hj; auto. }
      split. { intros o j [<-|Ho]; auto. }
      split; [destruct (rows (isSpace r) 1 t); [simpl in I6; lia|exact I5]|cbn; now rewrite I6].
Qed.

(* the marks on the text *)
Fixpoint marks (r : Z) (t : list Z) : list atom :=
  match t with
  | [] => [mkatom r (pen_of r) 0; eotAtom]
  | r' :: t' => mkatom r (if Bool.eqb (isSpace r') (isSpace r) then 0 else pen_of r) 0 :: marks r' t'
  end.

Lemma sec_zero m i : (forall o j, In o m -> sec o j = 0) -> column sec m i = 0.
Proof.
  intros H. unfold column. apply sum_zero. intros k _. destruct (nth_in_or_default k m []) as [X|X]; [auto|rewrite X; reflexivity].
Qed.

Lemma rows_nth0 b n t : prim (nth 0 (rows b n t) []) 1 = match t with [] => penb b | r' :: _ => if Bool.eqb (isSpace r') b then 0 else penb b end.
Proof. destruct t as [|r' t]; auto. cbn [rows]. destruct (Bool.eqb (isSpace r') b); auto. Qed.

Lemma effs_marks : forall t r o n, 0 < n -> only1 (o :: rows (isSpace r) n t) -> sec o = (fun _ => 0) ->
  effs (inputs (r :: t)) (o :: rows (isSpace r) n t) = marks r t.
Proof.
  induction t as [|r' t IH]; intros r o n Pn O S0.
  - unfold inputs. cbn [map app]. rewrite effs_cons, only1_head by auto. cbn [rows]. rewrite effs_cons.
    assert (X : column sec [o; [(0, [0; penb (isSpace r)])]] 0 = 0).
    { apply sec_zero. intros x j [<-|[<-|[]]]; [now rewrite S0|reflexivity]. }
    rewrite X. unfold effs. cbn. unfold penb, pen_of. destruct (isSpace r); reflexivity.
  - assert (Sz : column sec (o :: rows (isSpace r) n (r' :: t)) 0 = 0).
    { apply sec_zero. intros x j [<-|H]; [now rewrite S0|]. apply (rows_cons_ok (r' :: t) (isSpace r) n Pn); auto. }
    unfold inputs. cbn [map app]. rewrite effs_cons, only1_head by auto. rewrite rows_nth0, Sz. cbn [ar ap0 ap1].
    fold (inputs (r' :: t)). cbn [marks].
    replace (0 + (if Bool.eqb (isSpace r') (isSpace r) then 0 else penb (isSpace r)))
      with (if Bool.eqb (isSpace r') (isSpace r) then 0 else pen_of r)
      by (unfold pen_of, penb; destruct (Bool.eqb (isSpace r') (isSpace r)); lia).
    change (0 + 0) with 0. f_equal.
    assert (O' : forall x m, only1 (x :: m) -> only1 m) by (intros x m H o' j I; apply H; simpl; auto).
    change ((mkatom r' 0 0 :: map (fun r0 => mkatom r0 0 0) t) ++ [eotAtom]) with (inputs (r' :: t)).
    apply O' in O. cbn [rows] in *. destruct (Bool.eqb (isSpace r') (isSpace r)) eqn:E.
    + apply Bool.eqb_prop in E. rewrite <- E in *. apply IH; auto. lia.
    + apply IH; auto. lia.
Qed.

Lemma eqb_sym_ a b : Bool.eqb a b = Bool.eqb b a. Proof. destruct a, b; reflexivity. Qed.
Definition tst : atom -> bool := breakable (false, false) false.
Lemma tst_pen r q : tst (mkatom r (pen_of q) 0) = true.
Proof. unfold tst, breakable, pen_of. cbn. destruct (isSpace q); reflexivity. Qed.

Lemma cut_marks : forall t r o,
  cut tst (marks r t) o =
  match runs (r :: t) with w :: ws => (o ++ w, (pen_of r, 0)) :: map run_out ws | [] => [] end.
Proof.
  induction t as [|r' t IH]; intros r o.
  - cbn [marks runs cut]. rewrite tst_pen. reflexivity.
  - cbn [marks]. cbn [cut]. destruct (runs_hd r' t) as (w & ws & E).
    rewrite (runs_cons r r' t w ws E).
    rewrite !IH, E. rewrite (eqb_sym_ (isSpace r) (isSpace r')).
    destruct (Bool.eqb (isSpace r') (isSpace r)) eqn:Q.
    + change (tst (mkatom r 0 0)) with false. cbn iota. cbn [ar]. rewrite <- app_assoc. cbn [app].
      apply Bool.eqb_prop in Q. unfold pen_of. now rewrite Q.
    + rewrite tst_pen. cbn [ar ap0 ap1 app]. reflexivity.
Qed.

Lemma swb_cut_cons (o1 : list answer) r t : o1 = [(1, [])] -> let m := o1 :: rows (isSpace r) 1 t in
  obeys m /\ eot_safe m /\ cut tst (firstn (reach m) (effs (inputs (r :: t)) m)) [] = map run_out (runs (r :: t)).
Proof.
  intros Ho m. unfold m. clear m.
  destruct (rows_cons_ok t (isSpace r) 1 ltac:(lia)) as (I1 & I2 & I3 & I4 & I5 & I6).
  assert (L1 : longest o1 = 1) by (rewrite Ho; reflexivity).
  split; [apply obeys_cons; auto; intros x Hx; unfold follows; rewrite L1; now apply I2|].
  assert (Ne : rows (isSpace r) 1 t <> []) by (intros X; rewrite X in I6; discriminate).
  assert (La : last (o1 :: rows (isSpace r) 1 t) [] = last (rows (isSpace r) 1 t) []) by (destruct (rows (isSpace r) 1 t); [congruence|reflexivity]).
  split.
  { unfold eot_safe. rewrite La.
    assert (In (last (rows (isSpace r) 1 t) []) (rows (isSpace r) 1 t)).
    { rewrite last_nth. apply nth_In. rewrite I6. lia. }
    split; [rewrite (I3 _ 0%nat) by auto; lia|]. rewrite I4 by auto. lia. }
  rewrite reach_full; [|discriminate|rewrite La; auto].
  assert (EL : length (effs (inputs (r :: t)) (o1 :: rows (isSpace r) 1 t)) = length (o1 :: rows (isSpace r) 1 t)) by apply effs_len.
  rewrite <- EL, firstn_all. rewrite effs_marks; [|lia| |rewrite Ho; reflexivity].
  + rewrite cut_marks. destruct (runs_hd r t) as (w & ws & E). rewrite E. cbn [map]. unfold run_out at 2. reflexivity.
  + intros o j [<-|H] Hj; [rewrite Ho; destruct j; reflexivity|]. now apply I3.
Qed.

Theorem swb_cut rs : Forall (fun r => r <> 0) rs ->
  let m := matrix step [NewSimpleWordBreaker] (rs ++ [0]) in
  obeys m /\ eot_safe m /\ cut tst (firstn (reach m) (effs (inputs rs) m)) [] = map run_out (runs rs).
Proof.
  intros NZ m. unfold m. rewrite matrix_first by auto. destruct rs as [|r t].
  - cbn [first_rows]. split; [apply obeys_cons; [discriminate|apply obeys_nil]|]. split; [unfold eot_safe; cbn; lia|]. reflexivity.
  - exact (swb_cut_cons [(1, [])] r t eq_refl).
Qed.
End SWB.
