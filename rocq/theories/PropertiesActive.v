(* PropertiesActive.v -- C78: bounded work per rune, bounded penalties. *)
From Coq Require Import List ZArith Lia Bool.
From Verif Require Import Base PrioQ Recognizer SegSpec Active Line LineSum LineCor ActiveProofs.
From Verif Require Grapheme Words WordVerdict GraphemeProofs WordProofs.
Import ListNotations.
Open Scope Z_scope.

(* Whatever was read, at most two recognisers of a grapheme breaker are told about the next rune; the events of a text are at most two per
   rune; no penalty is beyond 40000 either way. *)
Theorem C78_graphemes : forall (table : Z -> Z -> bool) (pict : Z -> bool) (rs : list Z),
  (forall r, exists n, gtold table pict (after (Grapheme.gb_step table pict) (Some Grapheme.NewBreaker) rs) r = Some n /\ (n <= 2)%nat) /\
  (exists n, work (gtold table pict) (Grapheme.gb_step table pict) (Some Grapheme.NewBreaker) rs = Some n /\ (n <= 2 * length rs)%nat) /\
  Forall (within 40000) (answers (Grapheme.gb_step table pict) (Some Grapheme.NewBreaker) rs).
Proof.
  intros table pict rs. change Grapheme.NewBreaker with (GraphemeProofs.conc 0 GraphemeProofs.P0).
  assert (T : forall rs r, exists n, gtold table pict (after (Grapheme.gb_step table pict) (Some (GraphemeProofs.conc 0 GraphemeProofs.P0)) rs) r = Some n /\ (n <= 2)%nat).
  { intros rs' r. destruct (gb_after table pict rs' 0 GraphemeProofs.P0 I) as (e & p & V & ->). now apply gb_told. }
  split; [apply T|]. split; [now apply work_bound|]. now apply gb_within.
Qed.

(* The same for word breakers, with thirteen. *)
Theorem C78_words : forall (table : Z -> Z -> bool) (pict : Z -> bool) (rs : list Z),
  (forall r, exists n, wtold table pict (after (Words.wb_step table pict) (Some Words.NewWordBreaker) rs) r = Some n /\ (n <= 13)%nat) /\
  (exists n, work (wtold table pict) (Words.wb_step table pict) (Some Words.NewWordBreaker) rs = Some n /\ (n <= 13 * length rs)%nat) /\
  Forall (within 40000) (answers (Words.wb_step table pict) (Some Words.NewWordBreaker) rs).
Proof.
  intros table pict rs.
  assert (T : forall rs r, exists n, wtold table pict (after (Words.wb_step table pict) (Some Words.NewWordBreaker) rs) r = Some n /\ (n <= 13)%nat).
  { intros rs' r. destruct (wb_after table pict rs' Words.NewWordBreaker (WordProofs.W0, 0) I WordVerdict.new_state) as (b & s & V & Hs & ->). now apply (wb_told _ _ b s). }
  split; [apply T|]. split; [now apply work_bound|]. apply (wb_within _ _ rs _ (WordProofs.W0, 0) I WordVerdict.new_state).
Qed.

(* Line breakers: twelve, and one for each character of the number (or what may belong to one) at the end of the text read so far. *)
Theorem C78_lines_partial : forall (table : Z -> Z -> bool) (comb : Z -> bool) (rs : list Z),
  (forall r, exists n, ltold table comb (after (lb_step table comb) (Some NewLineWrap) rs) r = Some n /\ (n <= 12 + number_run (map (lcls table comb) rs))%nat) /\
  Forall (within (48000 + 4 * Z.of_nat (length rs))) (answers (lb_step table comb) (Some NewLineWrap) rs).
Proof.
  intros table comb rs. split.
  - intros r. destruct (lb_after table comb rs NewLineWrap st0 st0_ok new_state) as (b & I & ->). eexists. split; [apply (lb_told _ _ b _ r (states_ok _ _ _ _ st0_ok) I)|].
    pose proof (ms_run table comb rs). pose proof (twelve (fst (states table comb st0 rs)) (lcls table comb r) (proj1 (states_ok table comb rs st0 st0_ok)) (lcls_in _ _ r)). lia.
  - exact (lb_within table comb rs NewLineWrap st0 st0_ok new_state).
Qed.

(* There is no constant for line breakers: within a number a recogniser stays for every digit.  After n + 1 digits n + 8 of them are told about
   the next digit, the events of the text grow with the square of its length, and a letter behind the number gets a penalty of 4 n and more. *)
Theorem C78_lines_refuted : forall (table : Z -> Z -> bool) (comb : Z -> bool) (d : Z), lcls table comb d = NU ->
  forall n,
    ltold table comb (after (lb_step table comb) (Some NewLineWrap) (repeat d (S n))) d = Some (n + 8)%nat /\
    (exists w, work (ltold table comb) (lb_step table comb) (Some NewLineWrap) (repeat d (S n)) = Some w /\ (2 * w = n * n + 15 * n + 8)%nat) /\
    (forall r, lcls table comb r = AL ->
      nth 2 (snd (lb_step table comb (after (lb_step table comb) (Some NewLineWrap) (repeat d (S n))) r)) 0 =
        4 * Z.of_nat n + (if n then 0 else noBreak)).
Proof.
  intros table comb d Hd n. split; [now apply digits_told|]. split; [now apply digits_work|].
  intros r Hr. rewrite (digits_step table comb d Hd n r Hr). destruct n; [reflexivity|]. unfold DefaultPenalty.
  destruct (Z.gtb_spec (4 * Z.of_nat (S n)) 1); lia.
Qed.

(* No penalty leaves the range of an int of 64 bits. *)
Theorem C78_no_overflow : forall (tg tw tl : Z -> Z -> bool) (pict mark : Z -> bool) (rs : list Z) (k : Z), Z.of_nat (length rs) < 2 ^ 60 ->
  (forall a, In a (answers (Grapheme.gb_step tg pict) (Some Grapheme.NewBreaker) rs) \/ In a (answers (Words.wb_step tw pict) (Some Words.NewWordBreaker) rs) \/
    In a (answers (lb_step tl mark) (Some NewLineWrap) rs) -> In k (snd a) -> - 2 ^ 63 <= k < 2 ^ 63).
Proof.
  intros tg tw tl pict mark rs k L a H K.
  destruct (C78_graphemes tg pict rs) as (_ & _ & G). destruct (C78_words tw pict rs) as (_ & _ & W). destruct (C78_lines_partial tl mark rs) as (_ & N).
  rewrite Forall_forall in G, W, N. unfold within in *.
  assert (X : Z.abs k <= 48000 + 4 * Z.of_nat (length rs)).
  { destruct H as [H|[H|H]]; [specialize (G _ H)|specialize (W _ H)|specialize (N _ H)]; rewrite Forall_forall in *; [specialize (G _ K)|specialize (W _ K)|apply (N _ K)]; lia. }
  lia.
Qed.

(* The constants are reached. *)
Example C78_graphemes_ex :
  let t := fun c r => (r =? 100 + c) in
  gtold t (fun _ => false) (after (Grapheme.gb_step t (fun _ => false)) (Some Grapheme.NewBreaker) [100 + Grapheme.CR]) (100 + Grapheme.LF) = Some 2%nat /\
  answers (Grapheme.gb_step t (fun _ => false)) (Some Grapheme.NewBreaker) [100 + Grapheme.CR; 100 + Grapheme.LF] = [(1, [0; -10]); (1, [-40000; 10000])].
Proof. vm_compute. split; reflexivity. Qed.
Example C78_words_ex :
  let t := fun c r => (r =? 100 + c) in
  wtold t (fun _ => false) (after (Words.wb_step t (fun _ => false)) (Some Words.NewWordBreaker) [100 + Words.Hebrew_Letter; 100 + Words.ZWJ]) (100 + Words.Hebrew_Letter) = Some 13%nat.
Proof. vm_compute. reflexivity. Qed.
Definition line_tab : Z -> Z -> bool := fun c r => (r =? 100 + c).
Example C78_lines_partial_ex :
  let st := lb_step line_tab (fun _ => false) in
  lcls line_tab (fun _ => false) (100 + NU) = NU /\ lcls line_tab (fun _ => false) (100 + AL) = AL /\
  ltold line_tab (fun _ => false) (after st (Some NewLineWrap) (100 + HL :: repeat (100 + NU) 50)) (100 + NU) = Some 57%nat /\
  ltold line_tab (fun _ => false) (after st (Some NewLineWrap) (repeat (100 + NU) 50 ++ [100 + HL])) (100 + HL) = Some 12%nat.
Proof. vm_compute. repeat split; reflexivity. Qed.
Example C78_lines_refuted_ex :
  let st := lb_step line_tab (fun _ => false) in
  nth 2 (snd (st (after st (Some NewLineWrap) (repeat (100 + NU) 40)) (100 + AL))) 0 = 10156 /\
  work (ltold line_tab (fun _ => false)) st (Some NewLineWrap) (repeat (100 + NU) 41) = Some 1104%nat.
Proof. vm_compute. repeat split; reflexivity. Qed.
Example C78_no_overflow_ex : exists a, In a (answers (lb_step line_tab (fun _ => false)) (Some NewLineWrap) [100 + CR; 100 + LF; 100 + AL]) /\ exists k, In k (snd a) /\ k < -18000.
Proof. eexists. split; [right; left; vm_compute; reflexivity|]. vm_compute. eexists. split; [left; reflexivity|reflexivity]. Qed.
Print Assumptions C78_graphemes. Print Assumptions C78_words. Print Assumptions C78_lines_partial. Print Assumptions C78_lines_refuted. Print Assumptions C78_no_overflow.
