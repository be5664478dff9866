(* Append.v -- segmentations of which only the end changes when text is appended. *)
From Coq Require Import List ZArith Lia Bool.
From Verif Require Import Base BreakSpec BreakSpecProofs Resume.
From Verif Require Grapheme GraphemeSpec Words WordSpec LineSpec LineAgree.
Import ListNotations.
Open Scope Z_scope.

Section Any.
Context {C : Type} (brk : list C -> list C -> bool).

Lemma split_extend (more t2 : list C) : t2 <> [] -> forall t1 left open, t1 <> [] -> brk (rev t1 ++ left) t2 = true ->
  (forall l r, l <> [] -> l ++ r = t1 -> brk (rev l ++ left) (r ++ t2 ++ more) = brk (rev l ++ left) (r ++ t2)) ->
  exists a, split_text brk left open (t1 ++ t2) = a ++ split_text brk (rev t1 ++ left) [] t2 /\
            split_text brk left open (t1 ++ t2 ++ more) = a ++ split_text brk (rev t1 ++ left) [] (t2 ++ more) /\ List.concat a = open ++ t1.
Proof.
  intros N2. induction t1 as [|x t IH]; intros left open N1 B H; [congruence|].
  assert (E := H [x] t ltac:(discriminate) eq_refl). cbn [rev app] in E. destruct t as [|y u].
  - destruct t2 as [|z v]; [congruence|]. cbn [app rev] in *. rewrite !split_cons, E, B. exists [open ++ [x]]. cbn [app List.concat]. now rewrite app_nil_r.
  - cbn [app] in E |- *. rewrite !split_cons, E.
    assert (R : rev (x :: y :: u) ++ left = rev (y :: u) ++ x :: left) by (cbn [rev]; rewrite <- !app_assoc; reflexivity). rewrite R in *.
    assert (H' : forall l r, l <> [] -> l ++ r = y :: u -> brk (rev l ++ x :: left) (r ++ t2 ++ more) = brk (rev l ++ x :: left) (r ++ t2)).
    { intros l r Nl El. specialize (H (x :: l) r ltac:(discriminate) ltac:(cbn [app]; now rewrite El)). cbn [rev] in H. rewrite <- !app_assoc in H. exact H. }
    destruct (brk (x :: left) (y :: u ++ t2)).
    + destruct (IH (x :: left) [] ltac:(discriminate) B H') as (a & A1 & A2 & A3). cbn [app] in A1, A2, A3. rewrite A1, A2. exists ((open ++ [x]) :: a). cbn [app List.concat]. rewrite A3, <- app_assoc. auto.
    + destruct (IH (x :: left) (open ++ [x]) ltac:(discriminate) B H') as (a & A1 & A2 & A3). cbn [app] in A1, A2. rewrite A1, A2. exists a. rewrite A3, <- app_assoc. auto.
Qed.
Lemma same_parts : forall x y u v : list (list C), x ++ y = u ++ v -> List.concat x = List.concat u -> Forall (fun w => w <> []) (x ++ y) -> y <> [] -> v <> [] -> x = u /\ y = v.
Proof.
  induction x as [|p x IH]; intros y u v E Ec F Ny Nv.
  - destruct u as [|q u]; [auto|]. cbn [app] in *. subst y. pose proof (Forall_inv F) as Np. cbn beta in Np. cbn [List.concat] in Ec. symmetry in Ec. apply app_eq_nil in Ec. tauto.
  - destruct u as [|q u].
    + pose proof (Forall_inv F) as Np. cbn beta in Np. cbn [List.concat] in Ec. apply app_eq_nil in Ec. tauto.
    + cbn [app] in E. injection E as -> E. cbn [List.concat] in Ec. apply app_inv_head in Ec. destruct (IH y u v E Ec (Forall_inv_tail F) Ny Nv) as [-> ->]. auto.
Qed.
Lemma split_some left open rest : rest <> [] -> split_text brk left open rest <> [].
Proof. revert left open. induction rest as [|x t IH]; intros left open N; [congruence|]. destruct t as [|y u]; [discriminate|]. rewrite split_cons. destruct (brk _ _); [discriminate|]. apply IH. discriminate. Qed.

(* If the verdicts up to the end of the segments a do not change, these segments stay. *)
Lemma segmentation_extend more text a b : segmentation brk text = a ++ b -> b <> [] ->
  (forall l r, l <> [] -> l ++ r = List.concat a -> brk (rev l) (r ++ List.concat b) = true \/ r <> [] -> brk (rev l) (r ++ List.concat b ++ more) = brk (rev l) (r ++ List.concat b)) ->
  exists b', segmentation brk (text ++ more) = a ++ b'.
Proof.
  intros E Nb H. destruct a as [|w a']; [exists (segmentation brk (text ++ more)); reflexivity|]. set (a := w :: a') in *. assert (Na : a <> []) by discriminate. clearbody a. clear w a'.
  destruct (segmentation_at brk text a b E Na Nb) as (Et & A & B & Bk).
  assert (H' : forall l r, l <> [] -> l ++ r = List.concat a -> brk (rev l ++ []) (r ++ List.concat b ++ more) = brk (rev l ++ []) (r ++ List.concat b)).
  { intros l r Nl El. rewrite app_nil_r. apply H; auto. destruct r; [left|right; discriminate]. rewrite app_nil_r in El. subst l. exact Bk. }
  destruct (split_extend more (List.concat b) B (List.concat a) [] [] A) as (x & X1 & X2 & X3); [now rewrite app_nil_r|exact H'|].
  rewrite <- Et in X1. unfold segmentation in *. pose proof (split_nonempty brk text [] []) as Ne. rewrite E in X1, Ne.
  destruct (same_parts a b x _ X1 (eq_sym X3) Ne Nb (split_some _ _ _ B)) as [Ex _]. subst x.
  rewrite Et, <- app_assoc, X2. eauto.
Qed.
End Any.

(* ---- graphemes: all segments but the last ---- *)
Lemma grapheme_extend p cls text more a s : segmentation (GraphemeSpec.gb_break p cls) text = a ++ [s] ->
  exists b, segmentation (GraphemeSpec.gb_break p cls) (text ++ more) = a ++ b.
Proof.
  intros E. apply (segmentation_extend _ more text a [s] E ltac:(discriminate)). intros l r Nl El _. cbn [List.concat]. rewrite app_nil_r.
  pose proof (split_nonempty (GraphemeSpec.gb_break p cls) text [] []) as Ne. unfold segmentation in E. rewrite E in Ne. apply Forall_app in Ne. destruct Ne as [_ Ne]. pose proof (Forall_inv Ne) as Ns.
  destruct r; [destruct s; [congruence|]|]; reflexivity.
Qed.

(* ---- words: all but the last two ---- *)
Lemma skip_app : forall l m, WordSpec.skip l <> [] -> WordSpec.skip (l ++ m) = WordSpec.skip l ++ m.
Proof. induction l as [|c l IH]; intros m H; cbn in *; [congruence|]. destruct (WordSpec.extend c); [apply IH; exact H|reflexivity]. Qed.
Lemma one_app P l m : WordSpec.skip l <> [] -> WordSpec.one P (l ++ m) = WordSpec.one P l.
Proof. intros H. unfold WordSpec.one. rewrite skip_app by exact H. destruct (WordSpec.skip l); [congruence|reflexivity]. Qed.
Lemma word_stable l c after m : WordSpec.newline c = true \/ WordSpec.skip after <> [] ->
  WordSpec.wb_boundary true l (c :: after ++ m) = WordSpec.wb_boundary true l (c :: after).
Proof.
  intros H. unfold WordSpec.wb_boundary. destruct l as [|x l]; [reflexivity|]. destruct H as [Hn|Hs].
  - rewrite Hn. destruct ((x =? Words.CR) && (c =? Words.LF)); [reflexivity|]. destruct (WordSpec.newline x); reflexivity.
  - rewrite !one_app by exact Hs. destruct after as [|d after]; [now cbn in Hs|reflexivity].
Qed.
Lemma skip_in : forall l, (exists c, In c l /\ WordSpec.extend c = false) -> WordSpec.skip l <> [].
Proof.
  induction l as [|c l IH]; intros (x & I & X); [contradiction|]. cbn. destruct (WordSpec.extend c) eqn:Ec; [|discriminate]. apply IH. destruct I as [->|I]; [congruence|eauto].
Qed.
Lemma newline_kept c : WordSpec.newline c = true -> WordSpec.extend c = false.
Proof. unfold WordSpec.newline, WordSpec.extend. rewrite !orb_true_iff, !Z.eqb_eq. intros [[->| ->]| ->]; reflexivity. Qed.
Lemma word_extend cls text more a s1 s2 : segmentation (WordSpec.wb_break true cls) text = a ++ [s1; s2] ->
  exists b, segmentation (WordSpec.wb_break true cls) (text ++ more) = a ++ b.
Proof.
  intros E. apply (segmentation_extend _ more text a [s1; s2] E ltac:(discriminate)). intros l r Nl El _. cbn [List.concat]. rewrite app_nil_r.
  pose proof (split_nonempty (WordSpec.wb_break true cls) text [] []) as Ne. change (split_text (WordSpec.wb_break true cls) [] [] text) with (segmentation (WordSpec.wb_break true cls) text) in Ne.
  rewrite E in Ne. apply Forall_app in Ne. destruct Ne as [_ Ne]. pose proof (Forall_inv Ne) as N1. pose proof (Forall_inv (Forall_inv_tail Ne)) as N2. cbn beta in N1, N2.
  change (a ++ [s1; s2]) with (a ++ [s1] ++ [s2]) in E. rewrite app_assoc in E.
  destruct (segmentation_at _ text (a ++ [s1]) [s2] E) as (_ & _ & _ & Bk); [now destruct a|discriminate|].
  rewrite concat_app in Bk. cbn [List.concat] in Bk. rewrite !app_nil_r in Bk.
  destruct s1 as [|x1 s1'] eqn:Es1; [congruence|]. destruct (@exists_last _ (x1 :: s1') ltac:(discriminate)) as (u & z & Eu). rewrite Eu in *. clear x1 s1' N1 Es1 Eu.
  destruct s2 as [|y s2]; [congruence|].
  assert (Q : exists c after, r ++ (u ++ [z]) ++ y :: s2 = c :: after /\ (WordSpec.newline (cls c) = true \/ WordSpec.skip (map cls after) <> [])).
  { assert (K : WordSpec.newline (cls z) = true \/ WordSpec.extend (cls y) = false).
    { rewrite rev_app_distr, rev_app_distr in Bk. cbn [rev app] in Bk. unfold WordSpec.wb_break in Bk. cbn [map] in Bk. unfold WordSpec.wb_boundary in Bk.
      destruct (WordSpec.newline (cls z)); [auto|]. right. destruct (WordSpec.extend (cls y)) eqn:X; [|reflexivity]. exfalso.
      destruct ((cls z =? Words.CR) && (cls y =? Words.LF)); [discriminate|].
      destruct (WordSpec.newline (cls y)) eqn:Y; [apply newline_kept in Y; congruence|].
      destruct ((cls z =? Words.ZWJ) && (cls y =? Words.Pictographic)); [discriminate|]. destruct ((cls z =? Words.WSegSpace) && (cls y =? Words.WSegSpace)); discriminate. }
    assert (G : forall q, exists c after, q ++ [z] ++ y :: s2 = c :: after /\ (WordSpec.newline (cls c) = true \/ WordSpec.skip (map cls after) <> [])).
    { intros [|c q].
      - exists z, (y :: s2). split; [reflexivity|]. destruct K as [K|K]; [auto|]. right. apply skip_in. exists (cls y). split; [now left|exact K].
      - exists c, (q ++ [z] ++ y :: s2). split; [reflexivity|]. right. apply skip_in. destruct K as [K|K].
        + exists (cls z). split; [|now apply newline_kept]. apply in_map. apply in_or_app. right. now left.
        + exists (cls y). split; [|exact K]. apply in_map. apply in_or_app. right. right. now left. }
    destruct (G (r ++ u)) as (c & after & G1 & G2). exists c, after. split; [|exact G2]. rewrite <- G1, <- !app_assoc. reflexivity. }
  destruct Q as (c & after & Q1 & Q2). rewrite !app_assoc in *. rewrite Q1. unfold WordSpec.wb_break. cbn [app map]. rewrite map_app. apply word_stable. exact Q2.
Qed.

(* ---- lines: all but the last two ---- *)
Lemma line_extend cls text more a s1 s2 : segmentation (LineAgree.line_break LineSpec.code_break cls) text = a ++ [s1; s2] ->
  exists b, segmentation (LineAgree.line_break LineSpec.code_break cls) (text ++ more) = a ++ b.
Proof.
  intros E. apply (segmentation_extend _ more text a [s1; s2] E ltac:(discriminate)). intros l r Nl El _. cbn [List.concat]. rewrite app_nil_r.
  pose proof (split_nonempty (LineAgree.line_break LineSpec.code_break cls) text [] []) as Ne. unfold segmentation in E. rewrite E in Ne.
  apply Forall_app in Ne. destruct Ne as [_ Ne]. pose proof (Forall_inv Ne) as N1. pose proof (Forall_inv (Forall_inv_tail Ne)) as N2. cbn beta in N1, N2.
  assert (Q : exists c d after, r ++ s1 ++ s2 = c :: d :: after).
  { destruct r as [|c r]; [destruct s1 as [|c s1]; [congruence|]; destruct s1 as [|d s1]; [destruct s2; [congruence|]|]|destruct r as [|d r]; [destruct s1; [congruence|]|]]; cbn [app]; eauto. }
  destruct Q as (c & d & after & Q). rewrite !app_assoc in *. rewrite Q. reflexivity.
Qed.
