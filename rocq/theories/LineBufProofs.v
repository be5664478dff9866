(* LineBufProofs.v -- the line buffer delivers the lines of the file, whatever the reads are. *)
From Coq Require Import List ZArith Lia Bool Arith.
From Verif Require Import Base RuneWrite Segmenter Utf8 LineBuf UcdSpec.
Import ListNotations.
Open Scope Z_scope.

(* ---- the parts of a text in front of its first line end ---- *)
Definition plain (p : list Z) : Prop := Forall (fun b => b <> 10 /\ b <> 13) p.

Lemma plain_split s : exists p q, s = p ++ q /\ plain p /\ (q = [] \/ (exists r, q = 10 :: r) \/ (exists r, q = 13 :: r)).
Proof.
  induction s as [|b t (p & q & E & P & Q)].
  - exists [], []. repeat split; auto. constructor.
  - destruct (Z.eq_dec b 10) as [->|N]; [exists [], (10 :: t); repeat split; eauto; constructor|].
    destruct (Z.eq_dec b 13) as [->|N']; [exists [], (13 :: t); repeat split; eauto; constructor|].
    exists (b :: p), q. subst t. repeat split; auto. constructor; auto.
Qed.

Lemma first_line_plain p q : plain p -> first_line (p ++ q) = (p ++ fst (first_line q), snd (first_line q)).
Proof.
  induction 1 as [|b p [N1 N2] P IH]; cbn.
  - now destruct (first_line q).
  - destruct (Z.eqb_spec b 10), (Z.eqb_spec b 13); try lia. now rewrite IH.
Qed.

Lemma index_plain c p q : ~ In c p -> index_byte c (p ++ q) = match index_byte c q with Some i => Some (length p + i)%nat | None => None end.
Proof.
  induction p as [|b p IH]; intros N; cbn.
  - now destruct (index_byte c q).
  - destruct (Z.eqb_spec b c) as [->|]; [exfalso; apply N; now left|]. rewrite IH by (intro; apply N; now right).
    now destruct (index_byte c q).
Qed.
Lemma index_none c s : ~ In c s -> index_byte c s = None.
Proof. intros N. rewrite <- (app_nil_r s). rewrite index_plain by assumption. reflexivity. Qed.
Lemma index_some c s : In c s -> exists i, index_byte c s = Some i /\ (i < length s)%nat.
Proof.
  induction s as [|b t IH]; intros I; [destruct I|]. cbn.
  destruct (Z.eqb_spec b c) as [->|N]; [exists 0%nat; split; [reflexivity|lia]|].
  destruct I as [->|I]; [congruence|]. destruct (IH I) as (i & -> & L). exists (S i). split; [reflexivity|lia].
Qed.

Lemma plain_no_LF p : plain p -> ~ In 10 p.
Proof. intros P I. unfold plain in P. rewrite Forall_forall in P. apply P in I. tauto. Qed.
Lemma plain_no_CR p : plain p -> ~ In 13 p.
Proof. intros P I. unfold plain in P. rewrite Forall_forall in P. apply P in I. tauto. Qed.

Lemma dropCR_plain p : plain p -> dropCR p = p.
Proof.
  intros P. unfold dropCR. destruct (rev p) as [|b t] eqn:E; auto. destruct (Z.eqb_spec b CR) as [->|]; auto.
  exfalso. apply (plain_no_CR _ P). apply in_rev. rewrite E. now left.
Qed.
Lemma dropCR_CR p : dropCR (p ++ [13]) = p.
Proof. unfold dropCR. rewrite rev_unit. cbn. now rewrite rev_involutive. Qed.
Lemma dropCR_len s : (length s - 1 <= length (dropCR s))%nat.
Proof.
  unfold dropCR. destruct (rev s) as [|b t] eqn:E; [lia|]. destruct (b =? CR); [|lia].
  rewrite rev_length. rewrite <- (rev_length s), E. cbn. lia.
Qed.

Lemma lone_plain p q k : plain p -> (k <= length p)%nat -> lone_CR k (p ++ q) = None.
Proof.
  intros P. revert k. induction P as [|b p [N1 N2] P IH]; intros k L.
  - cbn in L. assert (k = 0)%nat as -> by lia. now destruct q.
  - destruct k; [reflexivity|]. cbn [app lone_CR]. cbn in L. rewrite IH by lia.
    destruct (Z.eqb_spec b CR); [unfold CR in *; lia|reflexivity].
Qed.
Lemma lone_found p c r k : plain p -> c <> 10 -> (length p < k)%nat -> lone_CR k (p ++ 13 :: c :: r) = Some (length p).
Proof.
  intros P N. revert k. induction P as [|b p [N1 N2] P IH]; intros k L; destruct k; try (cbn in L; lia).
  - cbn. destruct (Z.eqb_spec c LF) as [->|]; [unfold LF in N; lia|]. reflexivity.
  - cbn [app lone_CR]. cbn in L. rewrite IH by lia. destruct (Z.eqb_spec b CR); [unfold CR in *; lia|reflexivity].
Qed.
Lemma lone_nil k p : plain p -> lone_CR k p = None.
Proof.
  intros P. revert k. induction P as [|b p [N1 N2] P IH]; intros [|k]; auto. cbn. rewrite IH.
  destruct (Z.eqb_spec b CR); [unfold CR in *; lia|reflexivity].
Qed.

Lemma firstn_plus {A} (p q : list A) i : firstn (length p + i) (p ++ q) = p ++ firstn i q.
Proof. rewrite firstn_app, firstn_all2 by lia. f_equal. f_equal. lia. Qed.
Lemma skipn_plus {A} (p q : list A) i : skipn (length p + i) (p ++ q) = skipn i q.
Proof. rewrite skipn_app, skipn_all2 by lia. cbn. f_equal. lia. Qed.

Lemma cut_here {A} (q : list A) : forall (p : list A) (i k : nat), k = (length p + i)%nat -> skipn k (p ++ q) = skipn i q.
Proof. intros p i k ->. apply skipn_plus. Qed.

(* At the end of the file the split function cuts off the first line. *)
Lemma split_end s : s <> [] -> exists k, split s true = (k, Some (fst (first_line s))) /\ skipn k s = snd (first_line s).
Proof.
  intros NE. destruct (plain_split s) as (p & q & -> & P & Q). rewrite first_line_plain by assumption. cbn [fst snd].
  assert (NL := plain_no_LF _ P). unfold split, ScanLines.
  destruct (Z.eqb_spec (zlen (p ++ q)) 0) as [Z0|_].
  { exfalso. apply NE. apply length_zero_iff_nil. unfold zlen in Z0. lia. }
  cbn [andb].
  destruct Q as [->|[[r ->]|[r ->]]].
  - rewrite !app_nil_r. rewrite (index_none LF) by assumption. rewrite dropCR_plain by assumption.
    rewrite lone_nil by assumption. exists (length p). cbn. split; [reflexivity|apply skipn_all].
  - rewrite (index_plain LF) by assumption. cbn [index_byte]. change (10 =? LF) with true. cbn iota.
    rewrite firstn_plus. cbn [firstn]. rewrite app_nil_r, dropCR_plain by assumption.
    rewrite lone_plain by auto. exists (S (length p + 0)). cbn [first_line fst snd]. change (10 =? 10) with true. cbn iota. cbn [fst snd].
    rewrite app_nil_r. split; [reflexivity|]. replace (S (length p + 0)) with (length p + 1)%nat by lia. apply (cut_here (10 :: r) p 1). lia.
  - destruct r as [|c r].
    + rewrite (index_none LF) by (intro I; apply in_app_iff in I; destruct I as [I|[I|[]]]; [tauto|discriminate]).
      rewrite dropCR_CR. rewrite lone_plain by auto. exists (length (p ++ [13])). cbn. rewrite app_nil_r. split; [reflexivity|apply skipn_all].
    + destruct (Z.eq_dec c 10) as [->|N].
      * rewrite (index_plain LF) by assumption. cbn [index_byte]. change (13 =? LF) with false. change (10 =? LF) with true. cbn iota.
        rewrite firstn_plus. cbn [firstn]. rewrite dropCR_CR. rewrite lone_plain by auto.
        exists (S (length p + 1)). cbn [first_line fst snd]. change (13 =? 10) with false. change (13 =? 13) with true. change (10 =? 10) with true. cbn iota. cbn [fst snd].
        rewrite app_nil_r. split; [reflexivity|]. apply (cut_here (13 :: 10 :: r) p 2). lia.
      * assert (E : exists a tk, (if true then match index_byte LF (p ++ 13 :: c :: r) with
                     | Some i => (S i, Some (dropCR (firstn i (p ++ 13 :: c :: r)))) | None => (length (p ++ 13 :: c :: r), Some (dropCR (p ++ 13 :: c :: r))) end else (0%nat, None)) = (a, Some tk) /\ (length p < length tk)%nat).
        { rewrite (index_plain LF) by assumption. cbn [index_byte]. change (13 =? LF) with false. cbn iota.
          destruct (Z.eqb_spec c LF); [unfold LF in *; lia|]. destruct (index_byte LF r) as [i|].
          - eexists _, _. split; [reflexivity|]. pose proof (dropCR_len (firstn (length p + S (S i)) (p ++ 13 :: c :: r))) as D.
            rewrite firstn_plus in *. rewrite app_length in D. cbn [firstn length] in *. lia.
          - eexists _, _. split; [reflexivity|]. pose proof (dropCR_len (p ++ 13 :: c :: r)) as D. rewrite app_length in D. cbn [length] in D. lia. }
        destruct E as (a & tk & E & L). cbn iota in E. rewrite E. rewrite lone_found by assumption. exists (S (length p)).
        cbn [first_line fst snd]. change (13 =? 10) with false. change (13 =? 13) with true. cbn iota. destruct (Z.eqb_spec c 10); [lia|]. cbn [fst snd]. rewrite app_nil_r. split.
        { f_equal. f_equal. replace (length p) with (length p + 0)%nat by lia. rewrite firstn_plus. cbn. apply app_nil_r. }
        apply (cut_here (13 :: c :: r) p 1). lia.
Qed.

Lemma first_line_app s t : In 10 s -> first_line (s ++ t) = (fst (first_line s), snd (first_line s) ++ t).
Proof.
  induction s as [|b s IH]; intros I; [destruct I|]. cbn [app first_line].
  destruct (Z.eqb_spec b 10); [reflexivity|]. destruct I as [->|I]; [congruence|].
  destruct (Z.eqb_spec b 13).
  - cbn [fst snd]. destruct s as [|c s]; [destruct I|]. cbn [app]. now destruct (c =? 10).
  - rewrite IH by assumption. now destruct (first_line s).
Qed.

Lemma split_same s : In 10 s -> split s false = split s true.
Proof. intros I. unfold split, ScanLines. cbn [andb]. destruct (index_some 10 s I) as (i & E & L). change 10 with LF in E. rewrite E.
  destruct (Z.eqb_spec (zlen s) 0); [|reflexivity]. destruct s; [destruct I|]. unfold zlen in *. cbn in *. lia. Qed.
Lemma split_wait s : ~ In 10 s -> split s false = (0%nat, None).
Proof. intros I. unfold split, ScanLines. cbn [andb]. rewrite (index_none LF) by assumption. cbn. now destruct s. Qed.

(* ---- Scan ---- *)
(* what the scanner will still deliver *)
Definition pending (b : bufscan) : list Z := held b ++ todo b.
(* invariant: after the end of the reader nothing is left to read; at most 64K are held; a
   too long line has not been met *)
Definition bs_ok (b : bufscan) : Prop :=
  (serr b = None \/ serr b = Some (ending b) /\ todo b = []) /\ zlen (held b) <= MaxToken.

(* the next 64K of a text, if there are so many, contain a line feed *)
Definition fits (s : list Z) : Prop := forall a c, s = a ++ c -> zlen a = MaxToken -> In 10 a.
Lemma short_fits s : short_lines s -> fits s.
Proof.
  intros SH a c E L. destruct (in_dec Z.eq_dec 10 a) as [|N]; auto. exfalso.
  specialize (SH [] a c E N). unfold MaxToken in L. lia.
Qed.
Lemma fits_held b : fits (pending b) -> zlen (held b) = MaxToken -> In 10 (held b).
Proof. intros F. exact (F (held b) (todo b) eq_refl). Qed.

Lemma short_suffix a s : short_lines (a ++ s) -> short_lines s.
Proof. intros SH x y z -> N. apply (SH (a ++ x) y z); [now rewrite <- app_assoc|assumption]. Qed.

Lemma read_ok b : bs_ok b -> serr b = None -> zlen (held b) < MaxToken -> bs_ok (read b) /\ pending (read b) = pending b /\ ending (read b) = ending b /\
  (todo b = [] /\ serr (read b) = Some (ending b) \/ (length (todo (read b)) < length (todo b))%nat /\ serr (read b) = None).
Proof.
  intros [S L] SE LT. unfold read, pending, bs_ok. destruct (todo b) as [|x t] eqn:T.
  - cbn. repeat split; auto.
  - set (k := Z.to_nat _).
    assert (K : (1 <= k)%nat /\ Z.of_nat k <= MaxToken - zlen (held b)).
    { unfold k. destruct (sizes b) as [|s ?]; lia. }
    cbn [held todo sizes ending serr]. repeat split.
    + left. assumption.
    + rewrite zlen_app. unfold zlen at 2. rewrite firstn_length. unfold zlen in *. lia.
    + rewrite <- app_assoc. f_equal. apply firstn_skipn.
    + right. split; auto. rewrite skipn_length. cbn [length]. lia.
Qed.

Lemma in_held b : 0 < zlen (held b) -> held b <> [].
Proof. intros L E. rewrite E in L. unfold zlen in L. cbn in L. lia. Qed.

Lemma scan_loop_ok : forall n b, bs_ok b -> fits (pending b) -> (length (todo b) + 2 <= n + (if stopped b then 1 else 0))%nat -> (1 <= n)%nat ->
  exists b', bs_ok b' /\ ending b' = ending b /\
  (pending b = [] /\ scan_loop n b = Ok (false, [], b') /\ pending b' = [] /\ serr b' = Some (ending b)
   \/ pending b <> [] /\ scan_loop n b = Ok (true, fst (first_line (pending b)), b') /\ pending b' = snd (first_line (pending b))).
Proof.
  induction n as [|n IH]; intros b OK SH F F1; [lia|]. cbn [scan_loop].
  destruct OK as [OK L]. unfold stopped in *. destruct (serr b) as [e|] eqn:SE.
  - (* the reader has ended *)
    destruct OK as [D|[E T]]; [discriminate|]. injection E as ->. rewrite orb_true_r.
    unfold pending in *. rewrite T in *. rewrite app_nil_r in *.
    destruct (held b) as [|x h] eqn:H.
    + cbn [split ScanLines andb]. change (split [] true) with (0%nat, @None (list Z)). cbn iota. cbn [held todo sizes ending serr].
      eexists. split; [|split]; [| |left; split; [reflexivity|split; [reflexivity|]]]; cbn [held todo sizes ending serr]; auto.
      split; [right; auto|unfold MaxToken, zlen; cbn; lia].
    + destruct (split_end (x :: h)) as (k & -> & E2); [discriminate|]. cbn iota. cbn [held todo sizes ending serr].
      eexists. split; [|split; [|right; split; [discriminate|split; [reflexivity|]]]]; cbn [held todo sizes ending serr]; auto.
      * split; [right; auto|]. cbn [held]. unfold zlen in *. rewrite skipn_length. cbn [length] in *. lia.
      * now rewrite app_nil_r.
  - rewrite orb_false_r.
    assert (GO : zlen (held b) < MaxToken -> ~ In 10 (held b) -> exists b', bs_ok b' /\ ending b' = ending b /\
      (pending b = [] /\ scan_loop n (read b) = Ok (false, [], b') /\ pending b' = [] /\ serr b' = Some (ending b)
       \/ pending b <> [] /\ scan_loop n (read b) = Ok (true, fst (first_line (pending b)), b') /\ pending b' = snd (first_line (pending b)))).
    { intros LT NL. destruct (read_ok b) as (R1 & R2 & R3 & R4); auto. { split; auto. }
      destruct (IH (read b)) as (b' & B1 & B2 & B3); auto.
      - now rewrite R2.
      - destruct R4 as [[T ->]|[T ->]]; [|lia]. assert (todo (read b) = []) as ->. { unfold read. now rewrite T. } cbn [length]. lia.
      - lia.
      - rewrite R2 in B3. rewrite R3 in B2, B3. exists b'. auto. }
    destruct (Z.ltb_spec 0 (zlen (held b))) as [P|P].
    + destruct (in_dec Z.eq_dec 10 (held b)) as [I|NI].
      * rewrite (split_same _ I). destruct (split_end (held b)) as (k & -> & E2); [now apply in_held|]. cbn iota.
        unfold pending. rewrite first_line_app by assumption. cbn [fst snd].
        eexists. split; [|split; [|right; split; [|split; [reflexivity|]]]]; cbn [held todo sizes ending serr]; auto.
        -- split; cbn [held todo sizes ending serr]; [now left|]. unfold zlen in *. rewrite skipn_length. lia.
        -- intros E. apply app_eq_nil in E. apply in_held in P. tauto.
        -- now rewrite E2.
      * rewrite (split_wait _ NI). cbn iota. cbn [skipn held todo sizes ending serr].
        destruct (Z.eqb_spec (zlen (held b)) MaxToken) as [M|M]; [exfalso; apply NI; now apply fits_held|].
        replace (mkbs (held b) (todo b) (sizes b) (ending b) None) with b by (destruct b; cbn in *; now subst).
        apply GO; [lia|assumption].
    + assert (H : held b = []). { destruct (held b); auto. unfold zlen in P. cbn in P. lia. }
      destruct (Z.eqb_spec (zlen (held b)) MaxToken) as [M|M]; [rewrite H in M; discriminate|].
      apply GO; [rewrite H; reflexivity|rewrite H; auto].
Qed.

(* One Scan delivers the next line of the pending text. *)
Lemma Scan_fits b : bs_ok b -> fits (pending b) -> exists b', bs_ok b' /\ ending b' = ending b /\
  (pending b = [] /\ Scan b = Ok (false, [], b') /\ pending b' = [] /\ serr b' = Some (ending b)
   \/ pending b <> [] /\ Scan b = Ok (true, fst (first_line (pending b)), b') /\ pending b' = snd (first_line (pending b))).
Proof. intros OK SH. unfold Scan. apply scan_loop_ok; auto; lia. Qed.
Lemma Scan_ok b : bs_ok b -> short_lines (pending b) -> exists b', bs_ok b' /\ ending b' = ending b /\
  (pending b = [] /\ Scan b = Ok (false, [], b') /\ pending b' = [] /\ serr b' = Some (ending b)
   \/ pending b <> [] /\ Scan b = Ok (true, fst (first_line (pending b)), b') /\ pending b' = snd (first_line (pending b))).
Proof. intros OK SH. apply Scan_fits; [exact OK|now apply short_fits]. Qed.

Lemma first_line_suffix s : exists a, s = a ++ snd (first_line s).
Proof.
  induction s as [|b t [a E]]; [now exists []|]. cbn.
  destruct (b =? 10); [now exists [b]|]. destruct (b =? 13).
  - destruct t as [|c t']; cbn; [now exists [b]|]. destruct (c =? 10); cbn; [now exists [b; c]|now exists [b]].
  - destruct (first_line t) as [l r] eqn:F. cbn in *. exists (b :: a). cbn. now rewrite <- E.
Qed.
Lemma first_line_shorter s : s <> [] -> (length (snd (first_line s)) < length s)%nat.
Proof.
  induction s as [|b t IH]; [congruence|]. intros _. cbn.
  destruct (b =? 10); [cbn; lia|]. destruct (b =? 13).
  - destruct t as [|c t']; cbn; [lia|]. destruct (c =? 10); cbn; lia.
  - destruct (first_line t) as [l r] eqn:F. cbn in *. destruct t; [cbn in *; injection F as <- <-; cbn; lia|]. assert (length r < length (z :: t))%nat by (apply IH; discriminate). lia.
Qed.

(* the lines are determined and there are always some *)
Lemma lines_fun s ls : lines_of s ls -> forall ls', lines_of s ls' -> ls = ls'.
Proof.
  induction 1 as [|s l r ls N F H IH]; intros ls' H'; inversion H'; subst; try congruence.
  rewrite F in H1. injection H1 as -> ->. f_equal. auto.
Qed.
Lemma lines_exist s : exists ls, lines_of s ls.
Proof.
  remember (length s) as k eqn:K. assert (L : (length s <= k)%nat) by lia. clear K. revert s L.
  induction k; intros s L.
  - exists []. destruct s; [constructor|cbn in L; lia].
  - destruct s as [|b t]; [exists []; constructor|]. destruct (first_line (b :: t)) as [l r] eqn:F.
    pose proof (first_line_shorter (b :: t) ltac:(discriminate)) as S. rewrite F in S. cbn [snd] in S.
    destruct (IHk r) as [ls H]; [lia|]. exists (l :: ls). econstructor; eauto. discriminate.
Qed.

(* All lines are read, whatever the sizes of the reads are, then the reader's error is reported. *)
Lemma scan_all_ok s ls : lines_of s ls -> forall b n, bs_ok b -> pending b = s -> short_lines s -> (length ls < n)%nat ->
  scan_all n b = Ok (ls, match ending b with EOF => None | _ => Some (ending b) end).
Proof.
  induction 1 as [|s l r ls NE FL L IH]; intros b n OK P SH N; (destruct n; [lia|]); cbn [scan_all]; rewrite <- P in *;
    destruct (Scan_ok b OK SH) as (b' & OK' & EN & [(P0 & -> & _ & SE)|(P0 & -> & P')]); try congruence; cbn [rbind].
  - unfold Err. rewrite SE. now destruct (ending b).
  - rewrite FL in *. cbn [fst snd] in *. rewrite (IH b' n OK' P'), EN; [reflexivity| |cbn in N; lia].
    destruct (first_line_suffix (pending b)) as [a E]. rewrite FL in E. cbn [snd] in E. rewrite E in SH. now apply short_suffix in SH.
Qed.
Lemma scan_file s ls sizes e n : lines_of s ls -> short_lines s -> (length ls < n)%nat -> scan_all n (NewScanner s sizes e) = Ok (ls, match e with EOF => None | _ => Some e end).
Proof. intros L SH N. apply (scan_all_ok s ls L (NewScanner s sizes e) n); auto. unfold bs_ok, NewScanner. cbn. unfold zlen, MaxToken. cbn. split; [auto|lia]. Qed.
