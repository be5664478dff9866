(* ResolverRefuted.v -- numbers after right-to-left letters: the first pass does not end. *)
From Coq Require Import List ZArith Lia Bool.
From Verif Require Import Base Scrap Brackets Trie Rules RuleProofs Reorder ReorderSpec ReorderProofs SplitProofs Scanner ScannerProofs Resolver ResolverProofs ResolverFlat.
Import ListNotations.
Open Scope Z_scope.

Section Loop.
Context {store : Type} (findBr : store -> scrap -> option scrap * store) (changeBr : store -> scrap -> store).
Notation pst := (pst store).
Notation pass1_loop := (pass1_loop the_trie the_tab findBr changeBr).

(* No reading with three scraps ahead. *)
Lemma fill_none (p : pst) : (p_sp p + 3 <= length (p_stack p))%nat -> fill p = p.
Proof.
  intros H. unfold fill. replace (3 + p_sp p - length (p_stack p))%nat with O by lia. reflexivity.
Qed.

(* W7 for a number in right-to-left context: the rest of the stack is doubled. *)
Lemma apply_W7 (p : pst) u a t start lo : p_stack p = u ++ a :: t -> p_sp p = length u -> dcContext (sctx a) <> cL ->
  (start <= length u)%nat ->
  apply_rule p W7 start lo = Ok (with_sp (with_stack p (u ++ a :: t ++ t)) (jump lo (length u) 1)).
Proof.
  intros ES EP NC ST. unfold Resolver.apply_rule, tail_at. rewrite ES, EP.
  destruct (Nat.leb_spec (length u) (length (u ++ a :: t))) as [_|X]; [|rewrite app_length in X; lia]. cbn [lift rbind].
  rewrite skipn_app, skipn_all, Nat.sub_diag. cbn [skipn app action nth_error obind].
  apply Z.eqb_neq in NC. rewrite NC. cbn [lift rbind]. unfold reduce, overwrite. rewrite ES, EP.
  change (length (u ++ a :: t)) with (length (u ++ (a :: t))). rewrite <- app_length.
  destruct (Nat.leb_spec (length (u ++ a :: t)) (length (u ++ a :: t))) as [_|X]; [|lia]. cbn [obind].
  rewrite firstn_app, firstn_all, Nat.sub_diag. cbn [firstn]. rewrite app_nil_r, skipn_all, app_nil_r.
  rewrite Nat.max_r by (rewrite app_length; lia). rewrite Nat.leb_refl. cbn [lhsLen].
  assert (FR : Z.to_nat (Z.of_nat (length (u ++ a :: t)) - (Z.of_nat (length (a :: t)) - Z.of_nat (lhsLen W7))) = S (length u) /\
    0 <= Z.of_nat (length (u ++ a :: t)) - (Z.of_nat (length (a :: t)) - Z.of_nat (lhsLen W7)) <= zlen (u ++ a :: t)).
  { change (lhsLen W7) with 1%nat. unfold zlen. rewrite app_length. cbn [length]. lia. }
  destruct FR as [FR FB].
  destruct (Z.leb_spec 0 (Z.of_nat (length (u ++ a :: t)) - (Z.of_nat (length (a :: t)) - Z.of_nat (lhsLen W7)))) as [_|X]; [|lia].
  destruct (Z.leb_spec (Z.of_nat (length (u ++ a :: t)) - (Z.of_nat (length (a :: t)) - Z.of_nat (lhsLen W7))) (zlen (u ++ a :: t))) as [_|X]; [|lia].
  cbn [andb lift rbind]. rewrite FR, firstn_all.
  assert (SK : skipn (S (length u)) (u ++ a :: t) = t).
  { rewrite skipn_app, skipn_all2 by lia. replace (S (length u) - length u)%nat with 1%nat by lia. reflexivity. }
  rewrite SK, <- app_assoc. cbn [with_stack p_sp app]. rewrite EP. reflexivity.
Qed.

Definition pat (en ni en2 : scrap) : Prop :=
  clz en = cEN /\ clz ni = cNI /\ clz en2 = cEN /\ dcContext (sctx en) <> cL /\ dcContext (sctx en2) <> cL.

(* A number in right-to-left context, a neutral and a second such number: no number of rounds suffices. *)
Lemma number_loop : forall n (p : pst) u en ni en2 start,
  pat en ni en2 -> p_stack p = u ++ [en; ni; en2] -> p_sp p = length u -> (start <= length u)%nat ->
  pass1_loop n start false None p = NoFuel.
Proof.
  induction n as [n IH] using lt_wf_ind. intros p u en ni en2 start (C1 & C2 & C3 & D1 & D2) ES EP ST.
  assert (CL : Forall (fun s => is_class (clz s)) [en; ni; en2]).
  { repeat (apply Forall_cons; [rewrite ?C1, ?C2, ?C3; split; (discriminate || reflexivity)|]). apply Forall_nil. }
  (* first: the rule of three for EN NI EN belongs to the second pass *)
  destruct n as [|n]; [reflexivity|]. cbn [Resolver.pass1_loop].
  rewrite fill_none by (rewrite ES, EP, app_length; cbn [length]; lia).
  rewrite ES, EP. destruct (Nat.eqb_spec (length (u ++ [en; ni; en2])) (length u)) as [X|_]; [rewrite app_length in X; cbn [length] in X; lia|].
  rewrite (match_spec_at p u [en; ni; en2] 0 ES EP CL ltac:(lia)). cbn [rbind map firstn]. rewrite C1, C2, C3.
  replace (long_rule stored [cEN; cNI; cEN]) with (Some N1_10) by (vm_compute; reflexivity). change (1 <? pass N1_10) with true.
  replace (rule_for stored [cEN]) with (Some W7) by (vm_compute; reflexivity).
  (* then W7 *)
  destruct n as [|n]; [reflexivity|]. cbn [Resolver.pass1_loop].
  rewrite fill_none by (rewrite ES, EP, app_length; cbn [length]; lia).
  rewrite ES, EP. destruct (Nat.eqb_spec (length (u ++ [en; ni; en2])) (length u)) as [X|_]; [rewrite app_length in X; cbn [length] in X; lia|].
  change (1 <? pass W7) with false. cbv iota.
  rewrite (apply_W7 p u en [ni; en2] start start ES EP D1 ST). cbn [rbind app].
  set (q := with_sp _ _).
  assert (EQ : p_stack q = (u ++ [en]) ++ [ni; en2; ni; en2]) by (unfold q; cbn; rewrite <- app_assoc; reflexivity).
  assert (PQ : p_sp q = length (u ++ [en])).
  { unfold q, jump. cbn [with_sp p_sp]. rewrite app_length. cbn [length]. lia. }
  clearbody q.
  assert (CL' : Forall (fun s => is_class (clz s)) [ni; en2; ni; en2]).
  { repeat (apply Forall_cons; [rewrite ?C1, ?C2, ?C3; split; (discriminate || reflexivity)|]). apply Forall_nil. }
  (* the neutral is passed over *)
  destruct n as [|n]; [reflexivity|]. cbn [Resolver.pass1_loop].
  rewrite fill_none by (rewrite EQ, PQ, (app_length (u ++ [en])); cbn [length]; lia).
  rewrite EQ, PQ. destruct (Nat.eqb_spec (length ((u ++ [en]) ++ [ni; en2; ni; en2])) (length (u ++ [en]))) as [X|_];
    [rewrite (app_length (u ++ [en])) in X; cbn [length] in X; lia|].
  rewrite (match_spec_at q (u ++ [en]) _ 0 EQ PQ CL' ltac:(lia)). cbn [rbind map firstn]. rewrite C2, C3.
  replace (long_rule stored [cNI; cEN; cNI; cEN]) with (@None rule) by (vm_compute; reflexivity).
  replace (rule_for stored [cNI]) with (Some N2) by (vm_compute; reflexivity).
  destruct n as [|n]; [reflexivity|]. cbn [Resolver.pass1_loop].
  rewrite fill_none by (rewrite EQ, PQ, (app_length (u ++ [en])); cbn [length]; lia).
  rewrite EQ, PQ. destruct (Nat.eqb_spec (length ((u ++ [en]) ++ [ni; en2; ni; en2])) (length (u ++ [en]))) as [X|_];
    [rewrite (app_length (u ++ [en])) in X; cbn [length] in X; lia|].
  change (1 <? pass N2) with true. cbv iota.
  rewrite nth_error_app2, Nat.sub_diag by lia. cbn [nth_error lift rbind]. rewrite C2. unfold isisolate. rewrite C2.
  change (cNI =? cPDI) with false. change ((cNI =? cLRI) || (cNI =? cRLI) || (cNI =? cFSI) || false) with false. cbv iota.
  (* and the same situation again, with a longer stack *)
  apply (IH n ltac:(lia) _ (u ++ [en; ni]) en2 ni en2).
  - repeat split; auto.
  - cbn [with_sp p_stack]. rewrite EQ, <- !app_assoc. reflexivity.
  - cbn [with_sp p_sp]. rewrite !app_length. cbn [length]. lia.
  - rewrite app_length. lia.
Qed.
End Loop.
