(* BufferSpec.v -- what the buffer of the current segment (runewrite) is for, independent of its code: an
   abstract buffer that either follows a given text or collects the runes written to it, up to a limit. *)
From Coq Require Import List ZArith Lia Bool.
From Verif Require Import Base RuneWrite SegNext SegFacade.
Import ListNotations.
Open Scope Z_scope.

Inductive op := Write (r : Z) | Mark | Restart (text : option (list Z)) | Read.
Inductive out := Written (ok : bool) | Content (l : option (list Z)) | Nothing.

(* the code's machine: SetMark and Reset return a changed copy that the caller stores *)
Definition step (w : runewrite) (o : op) : runewrite * out :=
  match o with
  | Write r => let x := WriteRune w r in (fst x, Written (snd x))
  | Mark => (SetMark w, Nothing)
  | Restart b => (Reset w b, Nothing)
  | Read => (w, Content (Runes w))
  end.
Fixpoint trace {S} (st : S -> op -> S * out) (s : S) (os : list op) : list out :=
  match os with [] => [] | o :: r => snd (st s o) :: trace st (fst (st s o)) r end.
Fixpoint after {S} (st : S -> op -> S * out) (s : S) (os : list op) : S :=
  match os with [] => s | o :: r => after st (fst (st s o)) r end.

(* the abstract buffer: following a text between two positions, or collecting *)
Inductive way := Follow (text : list Z) (from upto : nat) | Collect.
Record abuf := mkab { how : way; kept : list Z; most : Z; pristine : bool }.
Definition astep (m : Z) (a : abuf) (o : op) : abuf * out :=
  match o with
  | Write r =>
      match how a with
      | Follow t i j => (mkab (Follow t i (S j)) (kept a) (most a) (pristine a), Written true)
      | Collect => if zlen (kept a) <? most a then (mkab Collect (kept a ++ [r]) (most a) false, Written true) else (a, Written false)
      end
  | Mark =>
      match how a with
      | Follow t i j => (mkab (Follow t j j) (kept a) (most a) (pristine a), Nothing)
      | Collect => (mkab Collect [] (most a) (pristine a), Nothing)
      end
  | Restart (Some t) => (mkab (Follow t 0 0) [] (most a) (pristine a), Nothing)
  | Restart None => (mkab Collect [] (if pristine a then Z.max 4096 m else most a) false, Nothing)
  | Read =>
      (a, Content match how a with
          | Follow t i j => if (j <=? length t)%nat then Some (firstn (j - i) (skipn i t)) else None
          | Collect => Some (kept a)
          end)
  end.
Definition empty_buf (m : Z) : abuf := mkab Collect [] (Z.max 0 m) true.
(* a buffer of the given maximal length, never used before *)
Definition new_buf (m : Z) : runewrite := mkrw m (backing rw_zero) (rstart rw_zero) (rend rw_zero) (output rw_zero) (outcap rw_zero) (outnil rw_zero).

Definition same (m : Z) (w : runewrite) (a : abuf) : Prop :=
  maxSegLen w = m /\ output w = kept a /\ outnil w = pristine a /\ limit w = most a /\ zlen (output w) <= outcap w /\
  (outnil w = true -> outcap w = 0 /\ output w = []) /\
  match how a with
  | Follow t i j => backing w = Some t /\ rstart w = Z.of_nat i /\ rend w = Z.of_nat j /\ (i <= j)%nat
  | Collect => backing w = None
  end.

Lemma same_new m : same m (new_buf m) (empty_buf m).
Proof. unfold same, new_buf, empty_buf, limit, zlen. cbn. repeat split; auto; lia. Qed.

Lemma same_step m w a o : same m w a -> same m (fst (step w o)) (fst (astep m a o)) /\ snd (step w o) = snd (astep m a o).
Proof.
  intros (Hm & Ho & Hn & Hl & Hc & Hz & Hw). destruct a as [h k lim pr]. cbn [how kept most pristine] in *. subst k pr.
  destruct o as [r| |[t|]|]; cbn [step astep fst snd how kept most pristine].
  - destruct h as [t i j|].
    + destruct Hw as (H1 & H2 & H3 & H4). unfold WriteRune. rewrite H1. cbn [fst snd]. split; [|reflexivity].
      unfold same, limit in *. cbn. repeat split; auto; try lia; apply Hz; auto.
    + cbn in Hw. unfold WriteRune. rewrite Hw.
      unfold limit in Hl. destruct (Z.eqb_spec (outcap w) (zlen (output w))) as [E|E].
      * rewrite Z.geb_leb. destruct (Z.leb_spec (maxSegLen w) (outcap w)) as [G|G]; cbn [fst snd].
        -- destruct (Z.ltb_spec (zlen (output w)) lim); [lia|]. split; [|reflexivity].
           unfold same, limit. cbn. repeat split; auto; try lia; apply Hz; auto.
        -- destruct (Z.ltb_spec (zlen (output w)) lim); [|lia]. split; [|reflexivity].
           rewrite Z.gtb_ltb. unfold startBufSize. unfold same, limit. cbn [fst snd maxSegLen output outcap outnil how kept most pristine].
           destruct (Z.ltb_spec (maxSegLen w) (Z.max (outcap w + 4096) (zlen (output w) + 1))); rewrite ?zlen_app; unfold zlen in *; cbn [length] in *;
             (repeat split; auto; try lia; discriminate).
      * cbn [fst snd]. destruct (Z.ltb_spec (zlen (output w)) lim); [|unfold zlen in *; lia]. split; [|reflexivity].
        unfold same, limit. cbn. rewrite zlen_app. unfold zlen in *. cbn [length] in *. repeat split; auto; try lia; discriminate.
  - destruct h as [t i j|]; unfold SetMark.
    + destruct Hw as (H1 & H2 & H3 & H4). rewrite H1. split; [|reflexivity]. unfold same, limit in *. cbn. repeat split; auto; apply Hz; auto.
    + rewrite Hw. split; [|reflexivity]. unfold same, limit in *. cbn. unfold zlen in *. cbn [length]. repeat split; auto; try lia; apply Hz; auto.
  - split; [|reflexivity]. unfold Reset, same, limit in *. cbn [fst maxSegLen output outcap outnil how kept most pristine backing rstart rend].
    destruct (Z.gtb_spec (outcap w) 0) as [G|G].
    + unfold zlen in *. cbn [length]. repeat split; auto; try lia; apply Hz; auto.
    + assert (output w = []) as -> by (destruct (output w); auto; unfold zlen in Hc; cbn [length] in Hc; lia).
      unfold zlen in *. cbn [length]. repeat split; auto; try lia; apply Hz; auto.
  - split; [|reflexivity]. unfold Reset. destruct (outnil w) eqn:N.
    + unfold same, limit, startBufSize, zlen. cbn. repeat split; auto; try lia; discriminate.
    + unfold same, limit in *. cbn [fst maxSegLen output outcap outnil how kept most pristine backing rstart rend].
      destruct (Z.gtb_spec (outcap w) 0) as [G|G].
      * unfold zlen in *. cbn [length]. repeat split; auto; try lia; discriminate.
      * assert (output w = []) as -> by (destruct (output w); auto; unfold zlen in Hc; cbn [length] in Hc; lia).
        unfold zlen in *. cbn [length]. repeat split; auto; try lia; discriminate.
  - split; [repeat split; auto; apply Hz; auto|]. unfold Runes. destruct h as [t i j|].
    + destruct Hw as (-> & -> & -> & L). destruct (Nat.leb_spec j (length t)).
      * replace (Z.of_nat j) with (Z.of_nat i + Z.of_nat (j - i)) by lia. rewrite zslice_eq by lia. reflexivity.
      * unfold zslice, zlen. destruct (Z.leb_spec (Z.of_nat j) (Z.of_nat (length t))); [lia|]. rewrite andb_false_r. reflexivity.
    + rewrite Hw. reflexivity.
Qed.

Theorem buffer_refines m : forall os w a, same m w a ->
  trace step w os = trace (astep m) a os /\ same m (after step w os) (after (astep m) a os).
Proof.
  induction os as [|o os IH]; intros w a H; [split; auto|].
  destruct (same_step m w a o H) as [H1 H2]. destruct (IH _ _ H1) as [H3 H4]. cbn [trace after]. now rewrite H2, H3.
Qed.

(* memory: the capacity never exceeds the larger of the first allocation and the maximal length *)
Lemma most_bound m : forall os a, most a <= Z.max 4096 m -> most (after (astep m) a os) <= Z.max 4096 m.
Proof.
  induction os as [|o os IH]; intros a H; auto. cbn [after]. apply IH.
  destruct o as [r| |[t|]|]; cbn [astep fst most]; auto.
  - destruct (how a); auto. destruct (zlen (kept a) <? most a); auto.
  - destruct (how a); auto.
  - destruct (pristine a); auto; cbn; lia.
Qed.
Lemma capacity_bound m os : outcap (after step (new_buf m) os) <= Z.max 4096 m.
Proof.
  destruct (buffer_refines m os _ _ (same_new m)) as [_ (_ & _ & _ & L & _)].
  pose proof (most_bound m os (empty_buf m)) as B. unfold limit in L. cbn [empty_buf most] in B. lia.
Qed.

(* the part the segmenter uses: mark, write, read *)
Definition written_ok (o : out) : bool := match o with Written b => b | _ => false end.
Lemma collect_trace m : forall l a, how a = Collect -> 0 <= zlen (kept a) <= most a ->
  trace (astep m) a (map Write l ++ [Read]) =
  map (fun i => Written (zlen (kept a) + Z.of_nat i <? most a)) (seq 0 (length l)) ++ [Content (Some (kept a ++ firstn (Z.to_nat (most a - zlen (kept a))) l))].
Proof.
  induction l as [|r l IH]; intros a Ha Hl.
  - cbn. rewrite Ha, firstn_nil, app_nil_r. reflexivity.
  - cbn [map trace app length seq]. cbn [astep]. rewrite Ha. cbn [fst snd].
    assert (E : forall f : nat -> out, map f (seq 1 (length l)) = map (fun i => f (S i)) (seq 0 (length l))) by (intros; now rewrite <- seq_shift, map_map).
    destruct (Z.ltb_spec (zlen (kept a)) (most a)) as [L|L]; cbn [fst snd].
    + rewrite IH; [|reflexivity|cbn [kept most]; rewrite zlen_app; unfold zlen in *; cbn [length]; lia].
      cbn [kept most]. rewrite zlen_app. replace (zlen [r]) with 1 by reflexivity.
      replace (Z.to_nat (most a - zlen (kept a))) with (S (Z.to_nat (most a - (zlen (kept a) + 1)))) by lia.
      cbn [firstn]. rewrite <- app_assoc. cbn [app]. rewrite E. f_equal; [f_equal; symmetry; apply Z.ltb_lt; lia|].
      f_equal. apply map_ext. intros i. f_equal. f_equal. lia.
    + rewrite IH by auto. replace (Z.to_nat (most a - zlen (kept a))) with 0%nat by lia. cbn [firstn]. rewrite E.
      f_equal; [f_equal; symmetry; apply Z.ltb_ge; lia|].
      f_equal. apply map_ext. intros i. f_equal. symmetry. transitivity false; [apply Z.ltb_ge; lia|symmetry; apply Z.ltb_ge; lia].
Qed.
