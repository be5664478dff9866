(* TestFileExact.v -- every call of Scan of a test file, and every text given to BreakTestInput. *)
From Coq Require Import List ZArith Lia Bool.
From Verif Require Import Base Utf8 LineBuf UcdParse UcdSpec UcdGenProofs.
Import ListNotations.
Open Scope Z_scope.

(* ---- Specification ---- *)
(* what a line that is no comment says *)
Definition text_of (l : list Z) : option (list Z) := match l with [] => None | _ => Some (fst (before_hash (TrimSpace l))) end.
Definition comment_of (l : list Z) : option (list Z) :=
  match l with [] => None | _ => match snd (before_hash (TrimSpace l)) with Some y => Some (fst (before_hash y)) | None => None end end.
(* the last word on a question *)
Definition latest (f : list Z -> option (list Z)) (ls : list (list Z)) (d : list Z) : list Z := fold_left (fun d l => match f l with Some x => x | None => d end) ls d.
Definition tests (ls : list (list Z)) : list (list Z) := filter (fun l => negb (is_comment l)) ls.
(* call number k *)
Definition report (ts : list (list Z)) (text comment : list Z) (k : nat) : bool * list Z * list Z :=
  let seen := firstn (S k) ts in ((k <? length ts)%nat, latest text_of seen text, latest comment_of seen comment).
(* the words between the break signs; the last group is not closed *)
Fixpoint groups (ws : list (list Z)) : list (list (list Z)) :=
  match ws with
  | [] => [[]]
  | w :: r => if list_eqb w break_sign then [] :: groups r else match groups r with g :: gs => (w :: g) :: gs | [] => [[w]] end
  end.
Definition spelled (g : list (list Z)) : list Z := concat (map (fun w => EncodeRune (to_rune (parse_uint w))) (filter (fun w => negb (list_eqb w nobreak_sign)) g)).
Definition nonempty (s : list Z) : bool := match s with [] => false | _ => true end.

(* ---- test files ---- *)
Lemma tf_scan_exact lines : forall text comment,
  match tests lines with
  | [] => tf_scan lines text comment = (false, mktf [] text comment)
  | l :: rest => exists lines', tf_scan lines text comment = (true, mktf lines' (latest text_of [l] text) (latest comment_of [l] comment)) /\ tests lines' = rest
  end.
Proof.
  induction lines as [|l lines IH]; intros text comment; [reflexivity|]. unfold tests. cbn [filter tf_scan]. destruct l as [|b l]; [cbn [is_comment negb]; exists lines; split; reflexivity|].
  cbn [is_comment]. destruct (b =? 35) eqn:E; cbn [negb]; [apply IH|]. exists lines. split; [|reflexivity]. unfold latest. cbn [fold_left text_of comment_of].
  pose proof (split_hash (TrimSpace (b :: l))) as SH. destruct (before_hash (TrimSpace (b :: l))) as [x [y|]]; rewrite SH; cbn [fst snd hd]; [|reflexivity].
  pose proof (split_hash y) as SY. destruct (before_hash y) as [u [v|]]; rewrite SY; reflexivity.
Qed.
Lemma scans_exact : forall n lines text comment, scans n (mktf lines text comment) = map (report (tests lines) text comment) (seq 0 n).
Proof.
  induction n as [|n IH]; intros lines text comment; [reflexivity|]. cbn [scans seq map]. unfold TfScan. cbn [tf_lines tf_text tf_comment]. pose proof (tf_scan_exact lines text comment) as T.
  rewrite <- seq_shift, map_map. destruct (tests lines) as [|l rest] eqn:E.
  - rewrite T. cbn [tf_text tf_comment]. rewrite IH. reflexivity.
  - destruct T as (lines' & -> & TR). cbn [tf_text tf_comment]. rewrite IH, TR. f_equal.
Qed.

(* ---- break tests ---- *)
Lemma groups_cons ws : exists g gs, groups ws = g :: gs.
Proof. induction ws as [|w r IH]; [eexists _, _; reflexivity|]. cbn [groups]. destruct (list_eqb w break_sign); [eexists _, _; reflexivity|]. destruct IH as (g & gs & ->). eexists _, _. reflexivity. Qed.
Lemma nonempty_spec s : (0 <? zlen s) = nonempty s.
Proof. destruct s as [|b t]; [reflexivity|]. rewrite zlen_cons. pose proof (zlen_nonneg t). cbn [nonempty]. lia. Qed.
Lemma test_loop_exact : forall ws inp run out,
  test_loop ws inp run out =
    match groups ws with
    | g :: gs => (inp ++ concat (map spelled (g :: gs)), out ++ filter nonempty (removelast ((run ++ spelled g) :: map spelled gs)))
    | [] => (inp, out)
    end.
Proof.
  induction ws as [|w r IH]; intros inp run out; [cbn; rewrite !app_nil_r; reflexivity|]. cbn [test_loop groups]. change divsign with break_sign. change mulsign with nobreak_sign.
  destruct (list_eqb w break_sign) eqn:E.
  - destruct (groups_cons r) as (g & gs & EG). rewrite nonempty_spec. destruct run as [|b run]; cbn [nonempty]; rewrite IH, EG; unfold spelled at 2; cbn [filter map concat app].
    + f_equal.
    + rewrite app_nil_r, <- app_assoc. f_equal.
  - destruct (groups_cons r) as (g & gs & EG). destruct (list_eqb w nobreak_sign) eqn:E2; rewrite IH, EG; unfold spelled; cbn [filter map concat]; rewrite E2; cbn [negb map concat]; [reflexivity|].
    rewrite <- !app_assoc. reflexivity.
Qed.
Lemma break_exact ti : BreakTestInput ti = (concat (map spelled (groups (ScanWords ti))), filter nonempty (map spelled (removelast (groups (ScanWords ti))))).
Proof.
  unfold BreakTestInput. rewrite test_loop_exact. destruct (groups_cons (ScanWords ti)) as (g & gs & ->). cbn [app]. f_equal. f_equal. clear.
  change (spelled g :: map spelled gs) with (map spelled (g :: gs)). generalize (g :: gs). clear. intros l. induction l as [|x [|y t] IH]; [reflexivity|reflexivity|]. cbn [map] in *. cbn [removelast] in *. cbn [map]. f_equal. exact IH.
Qed.
