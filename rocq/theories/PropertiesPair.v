(* PropertiesPair.v -- C79: two breakers of the library in one segmenter.
   [tables] are the range tables of the three packages and the predicates for emoji, combining marks and white space; all arbitrary. *)
From Coq Require Import List ZArith Lia Bool.
From Verif Require Import Base RuneWrite Segmenter SegInv BreakSpec BreakSpecProofs LineSpec LineAgree AnyBreaker PairSpec PairProofs.
From Verif Require Classes ClassProofs Grapheme Words Line PropertiesLine.
Import ListNotations.
Open Scope Z_scope.

(* The segments end exactly where the primary or the secondary breaker, each on its own, would end one.  What is asked of the text
   says [fit]. *)
Theorem C79_two_breakers_partial :
  forall t p s text n, fit t p s text -> zlen text < MaxInt -> (length text + 1 < n)%nat ->
    exists s1 outs s', InitFromSlice deque_ops text (NewSegmenter [new_breaker p; new_breaker s]) = Ok s1 /\
      loop deque_ops (any_step t) n s1 = Ok (outs, true, s') /\
      map fst outs = segmentation (union (rules t p) (rules t s)) text /\ Err s' = None.
Proof. exact two_slice. Qed.
(* The same for a reader, where each segment is cut off behind 4096 runes (C10). *)
Theorem C79_two_breakers_reader_partial :
  forall t p s its n, fit t p s (map fst its) -> Forall (fun it => 1 <= snd it) its -> sizes its < MaxInt -> (length its + 1 < n)%nat ->
    exists s1 outs s', Init deque_ops (mkrd its EOF) (NewSegmenter [new_breaker p; new_breaker s]) = Ok s1 /\
      loop deque_ops (any_step t) n s1 = Ok (outs, true, s') /\
      map fst outs = map (firstn (Z.to_nat 4096)) (segmentation (union (rules t p) (rules t s)) (map fst its)) /\ Err s' = None.
Proof. exact two_reader. Qed.

(* Graphemes and words, in any combination, fit for all tables and texts. *)
Theorem C79_graphemes_and_words :
  forall t p s text n, In p [KGraphemes; KWords] -> In s [KGraphemes; KWords] -> zlen text < MaxInt -> (length text + 1 < n)%nat ->
    exists s1 outs s', InitFromSlice deque_ops text (NewSegmenter [new_breaker p; new_breaker s]) = Ok s1 /\
      loop deque_ops (any_step t) n s1 = Ok (outs, true, s') /\
      map fst outs = segmentation (union (rules t p) (rules t s)) text /\ Err s' = None.
Proof.
  intros t p s text n Ip Is. apply two_slice. simpl in Ip, Is. destruct Ip as [<-|[<-|[]]], Is as [<-|[<-|[]]];
    (split; [discriminate|]; split; [discriminate|]; intros [X|X]; discriminate).
Qed.
(* With the tables of the repository for graphemes and words, any two breakers but lines with simple words may be combined; of the table for lines it
   is only asked that U+000D is the one CR in it, and of a text for simple words that there is no NUL in it. *)
Theorem C79_repository_tables :
  forall tl comb space p s text n, let t := mktables Classes.gtable Classes.wtable tl Classes.pict comb space in
    (p, s) <> (KLines, KSpaces) -> (p, s) <> (KSpaces, KLines) -> (p = KSpaces \/ s = KSpaces -> space 0 = false /\ Forall (fun r => r <> 0) text) ->
    (forall r, In r text -> lcl t r = Line.CR -> r = 13) -> zlen text < MaxInt -> (length text + 1 < n)%nat ->
    exists s1 outs s', InitFromSlice deque_ops text (NewSegmenter [new_breaker p; new_breaker s]) = Ok s1 /\
      loop deque_ops (any_step t) n s1 = Ok (outs, true, s') /\
      map fst outs = segmentation (union (rules t p) (rules t s)) text /\ Err s' = None.
Proof.
  intros tl comb space p s text n t N1 N2 Hz Hc Tt Hn. apply two_slice; auto.
  assert (A : forall k, k <> KSpaces -> beside_lines t k text).
  { intros k Hs. split; [|intros X; contradiction]. intros r Ir Hr. rewrite (Hc r Ir Hr). destruct k; [now apply ClassProofs.gclass_CR|now apply ClassProofs.wclass_CR|exact I|exact I]. }
  split; [intros ->; apply A; congruence|]. split; [intros ->; apply A; congruence|]. exact Hz.
Qed.
(* Which of the two is the primary breaker makes no difference to the segments. *)
Theorem C79_order_partial :
  forall t p s text n, fit t p s text -> zlen text < MaxInt -> (length text + 1 < n)%nat ->
    exists s1 outs1 s1' s2 outs2 s2',
      InitFromSlice deque_ops text (NewSegmenter [new_breaker p; new_breaker s]) = Ok s1 /\ loop deque_ops (any_step t) n s1 = Ok (outs1, true, s1') /\
      InitFromSlice deque_ops text (NewSegmenter [new_breaker s; new_breaker p]) = Ok s2 /\ loop deque_ops (any_step t) n s2 = Ok (outs2, true, s2') /\
      map fst outs1 = map fst outs2.
Proof.
  intros t p s text n Hf Tt Hn. destruct (two_slice t p s text n Hf Tt Hn) as (s1 & o1 & s1' & A & B & C & _).
  assert (Hf' : fit t s p text) by (unfold fit in *; tauto).
  destruct (two_slice t s p text n Hf' Tt Hn) as (s2 & o2 & s2' & D & E & F & _).
  exists s1, o1, s1', s2, o2, s2'. repeat split; auto. rewrite C, F. unfold segmentation. clear.
  assert (G : forall rest left open, split_text (union (rules t p) (rules t s)) left open rest = split_text (union (rules t s) (rules t p)) left open rest).
  { induction rest as [|r u IH]; intros left open; [reflexivity|]. cbn [split_text]. destruct u as [|y u]; [reflexivity|].
    assert (X : union (rules t p) (rules t s) (r :: left) (y :: u) = union (rules t s) (rules t p) (r :: left) (y :: u)) by apply orb_comm. rewrite X.
    destruct (union (rules t s) (rules t p) (r :: left) (y :: u)); [f_equal|]; apply IH. }
  apply G.
Qed.

(* ---- where it fails ---- *)
Definition white (r : Z) : bool := (9 <=? r) && (r <=? 13) || (r =? 32).
Definition mixed : tables := mktables Classes.gtable Classes.wtable PropertiesLine.ltab Classes.pict PropertiesLine.nocomb white.
Definition segments (t : tables) (ks : list kind) (text : list Z) : res (list (list Z)) :=
  let* s := InitFromSlice deque_ops text (NewSegmenter (map new_breaker ks)) in
  let* (outs, ok, s') := loop deque_ops (any_step t) (length text + 2) s in Ok (map fst outs).
(* The penalties of secondary breakers are added up before they are judged: "1.2" has three graphemes, but a segmenter for words with lines and
   graphemes as secondary breakers does not find the break behind "1", because the line breaker forbids what the grapheme breaker allows. *)
Theorem C79_two_secondaries_refuted :
  segments mixed [KWords; KLines; KGraphemes] [49; 46; 50] = Ok [[49; 46]; [50]] /\
  segments mixed [KWords; KGraphemes] [49; 46; 50] = Ok [[49]; [46]; [50]] /\
  segmentation (union (rules mixed KWords) (union (rules mixed KLines) (rules mixed KGraphemes))) [49; 46; 50] = [[49]; [46]; [50]].
Proof. vm_compute. repeat split; reflexivity. Qed.
(* A line breaker with a simple word breaker: in "a", LF, CR, LF, "b" there is a line break behind the first LF.  The simple word breaker holds all of the
   white space open, and when it lets go, the line breaker has spoilt its own break. *)
Theorem C79_lines_and_spaces_refuted :
  segments mixed [KLines] [97; 10; 13; 10; 98] = Ok [[97; 10]; [13; 10]; [98]] /\
  segments mixed [KLines; KSpaces] [97; 10; 13; 10; 98] = Ok [[97]; [10; 13; 10]; [98]] /\
  segmentation (union (rules mixed KLines) (rules mixed KSpaces)) [97; 10; 13; 10; 98] = [[97]; [10]; [13; 10]; [98]].
Proof. vm_compute. repeat split; reflexivity. Qed.
(* With a rune that is CR for the line breaker and Extend for the word breaker, between a hard break and a LF, the break is lost in the same way. *)
Definition odd_tables : tables :=
  mktables Classes.gtable (fun c r => c =? if r =? 13 then Words.Extend else Words.ALetter) PropertiesLine.ltab (fun _ => false) PropertiesLine.nocomb white.
Theorem C79_disagreeing_tables_refuted :
  ~ cr_agree odd_tables KWords [11; 13; 10] /\
  segments odd_tables [KLines; KWords] [11; 13; 10] = Ok [[11; 13; 10]] /\
  segmentation (union (rules odd_tables KLines) (rules odd_tables KWords)) [11; 13; 10] = [[11]; [13; 10]].
Proof.
  split; [|vm_compute; split; reflexivity]. intros H. specialize (H 13 ltac:(simpl; auto) ltac:(vm_compute; reflexivity)). vm_compute in H. discriminate.
Qed.

(* ---- the theorems are about something ---- *)
(* "ab (c", CR LF, VT, CR, "d" *)
Example C79_two_breakers_partial_ex :
  fit mixed KWords KLines [97; 98; 32; 40; 99; 13; 10; 11; 13; 100] /\
  segments mixed [KWords; KLines] [97; 98; 32; 40; 99; 13; 10; 11; 13; 100] = Ok [[97; 98]; [32]; [40]; [99]; [13; 10]; [11]; [13]; [100]] /\
  segments mixed [KLines; KGraphemes] [97; 98; 32; 13; 10] = Ok [[97]; [98]; [32]; [13; 10]] /\
  segments mixed [KLines; KLines] [97; 98; 32; 40; 99] = Ok [[97; 98; 32]; [40; 99]] /\
  fit mixed KLines KSpaces [97; 45; 98; 32; 13; 10] /\
  segments mixed [KLines; KSpaces] [97; 45; 98; 32; 13; 10] = Ok [[97; 45]; [98]; [32; 13; 10]].
Proof.
  split; [|split; [vm_compute; reflexivity|split; [vm_compute; reflexivity|split; [vm_compute; reflexivity|split; [|vm_compute; reflexivity]]]]].
  - split; [discriminate|]. split; [|intros [X|X]; discriminate]. intros _. split; [|discriminate].
    intros r Ir Hr. simpl in Ir. repeat destruct Ir as [<-|Ir]; try contradiction; vm_compute in Hr; try discriminate; vm_compute; reflexivity.
  - split; [|split; [discriminate|]].
    + intros _. split; [intros r _ _; exact I|]. intros _ l a b r E Hb.
      do 7 (destruct l as [|? l]; cbn [app] in E; [try discriminate; injection E as; subst; try reflexivity; vm_compute in Hb; discriminate|
        try discriminate; injection E as ? E; try (destruct l; discriminate)]).
    + intros _. split; [reflexivity|]. repeat constructor; discriminate.
Qed.
Example C79_two_breakers_reader_partial_ex :
  exists s1 outs s', Init deque_ops (mkrd [(97, 1); (32, 1); (228, 2)] EOF) (NewSegmenter [new_breaker KGraphemes; new_breaker KLines]) = Ok s1 /\
    loop deque_ops (any_step mixed) 5 s1 = Ok (outs, true, s') /\ map fst outs = [[97]; [32]; [228]].
Proof.
  destruct (C79_two_breakers_reader_partial mixed KGraphemes KLines [(97, 1); (32, 1); (228, 2)] 5) as (s1 & outs & s' & A & B & C & _);
    [|repeat constructor; discriminate|reflexivity|cbn; lia|].
  - split; [discriminate|]. split; [|intros [X|X]; discriminate]. intros _. split; [|discriminate].
    intros r Ir Hr. simpl in Ir. repeat destruct Ir as [<-|Ir]; try contradiction; vm_compute in Hr; discriminate.
  - exists s1, outs, s'. rewrite C. repeat split; auto.
Qed.
Example C79_graphemes_and_words_ex : segments mixed [KWords; KGraphemes] [97; 98; 13; 10] = Ok [[97]; [98]; [13; 10]] /\ segments mixed [KWords; KWords] [97; 98; 32; 99] = Ok [[97; 98]; [32]; [99]].
Proof. vm_compute. split; reflexivity. Qed.
Example C79_repository_tables_ex : lcl mixed 13 = Line.CR /\ segments mixed [KLines; KWords] [97; 10; 13; 10; 98] = Ok [[97]; [10]; [13; 10]; [98]] /\
  segments mixed [KSpaces; KWords] [97; 46; 32; 32; 98] = Ok [[97]; [46]; [32; 32]; [98]].
Proof. vm_compute. repeat split; reflexivity. Qed.
Example C79_order_partial_ex : segments mixed [KGraphemes; KLines] [97; 98; 32; 13; 10] = segments mixed [KLines; KGraphemes] [97; 98; 32; 13; 10].
Proof. vm_compute. reflexivity. Qed.
Print Assumptions C79_two_breakers_partial. Print Assumptions C79_two_breakers_reader_partial. Print Assumptions C79_graphemes_and_words.
Print Assumptions C79_repository_tables. Print Assumptions C79_order_partial.
Print Assumptions C79_two_secondaries_refuted. Print Assumptions C79_lines_and_spaces_refuted. Print Assumptions C79_disagreeing_tables_refuted.
