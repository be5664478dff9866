(* ShowProofs.v -- names are distinct, readable forms can be read back. *)
From Coq Require Import List ZArith Lia Bool String.
From Verif Require Import Base Generator GoSource GeneratorProofs GeneratorFileProofs Scrap Reorder Show.
Import ListNotations.
Open Scope Z_scope.
Local Open Scope list_scope.

(* ---- independent table of the names: bidi/trieval.go of x/text, and scanner.go:414-419 ---- *)
Definition class_names : list (Z * list Z) := map (fun p => (fst p, bytes (snd p))) [
  (cL, "L"); (cR, "R"); (cEN, "EN"); (cES, "ES"); (cET, "ET"); (cAN, "AN"); (cCS, "CS"); (cB, "B"); (cS, "S");
  (cWS, "WS"); (cON, "ON"); (cBN, "BN"); (cNSM, "NSM"); (cAL, "AL"); (cControl, "Control"); (15, "Num");
  (cLRO, "LRO"); (cRLO, "RLO"); (cLRE, "LRE"); (cRLE, "RLE"); (cPDF, "PDF"); (cLRI, "LRI"); (cRLI, "RLI");
  (cFSI, "FSI"); (cPDI, "PDI"); (cBRACKO, "BRACKO"); (cBRACKC, "BRACKC"); (cNI, "NI"); (cMAX, "<max>"); (cNULL, "cNULL")]%string.

Lemma names_ok : Forall (fun p => classString (fst p) = Ok (snd p)) class_names.
Proof. unfold class_names. cbn [map fst snd]. repeat (constructor; [vm_compute; reflexivity|]). constructor. Qed.
(* the classes that are in use *)
Definition known (c : Z) : Prop := In c (map fst class_names).
Lemma known_cases c : 0 <= c -> known c \/ (28 < c /\ c <> 999).
Proof.
  intros C. destruct (Z.leb_spec c 28) as [L|G].
  - left. unfold known. change (map fst class_names) with (map Z.of_nat (seq 0 29) ++ [999]). apply in_or_app. left. rewrite <- (Z2Nat.id c) by lia. apply in_map. apply in_seq. lia.
  - destruct (Z.eq_dec c 999) as [->|N]; [left; vm_compute; tauto|right; lia].
Qed.
Lemma known_name c : known c -> exists n, In (c, n) class_names /\ classString c = Ok n.
Proof.
  intros K. apply in_map_iff in K. destruct K as ([c' n] & E & I). cbn in E. subst c'. exists n. split; [exact I|].
  pose proof names_ok as F. rewrite Forall_forall in F. apply (F _ I).
Qed.
Lemma other_name c : 28 < c -> c <> 999 -> classString c = Ok (bytes "bidi_class(" ++ itoa (to_int64 c) ++ bytes ")").
Proof.
  intros C N. unfold classString, cNULL, cPDI, cMAX. destruct (Z.eqb_spec c 999); [lia|]. destruct (Z.ltb_spec 24 c); [|lia]. destruct (Z.leb_spec c 28); [lia|]. reflexivity.
Qed.
(* no class panics *)
Lemma name_total c : 0 <= c -> exists n, classString c = Ok n.
Proof.
  intros C. destruct (known_cases c C) as [K|(A & B)].
  - destruct (known_name c K) as (n & _ & E). eauto.
  - eauto using other_name.
Qed.

(* the names of the classes in use: no separator in them, all distinct, none like the others *)
Definition plain (b : Z) : bool := negb ((b =? 45) || (b =? 32) || (b =? 93) || (b =? 41) || (b =? 124) || (b =? 46) || (b =? 194)).
Lemma names_plain : forallb (fun p => forallb plain (snd p)) class_names = true.
Proof. vm_compute. reflexivity. Qed.
Fixpoint beq (a b : list Z) : bool := match a, b with [], [] => true | x :: s, y :: t => (x =? y) && beq s t | _, _ => false end.
Lemma beq_refl a : beq a a = true.
Proof. induction a as [|x a IH]; [reflexivity|]. cbn. now rewrite Z.eqb_refl, IH. Qed.
Lemma names_distinct : forallb (fun p => forallb (fun q => (fst p =? fst q) || negb (beq (snd p) (snd q))) class_names) class_names = true.
Proof. vm_compute. reflexivity. Qed.
Lemma names_short : forallb (fun p => negb (beq (firstn 11 (snd p)) (bytes "bidi_class("))) class_names = true.
Proof. vm_compute. reflexivity. Qed.
Lemma known_inj c d n : In (c, n) class_names -> In (d, n) class_names -> c = d.
Proof.
  intros C D. pose proof names_distinct as F. rewrite forallb_forall in F. specialize (F _ C). rewrite forallb_forall in F. specialize (F _ D).
  cbn [fst snd] in F. rewrite beq_refl in F. cbn in F. rewrite orb_false_r in F. now apply Z.eqb_eq.
Qed.
Lemma to_int64_inj c d : 0 <= c < 2 ^ 64 -> 0 <= d < 2 ^ 64 -> to_int64 c = to_int64 d -> c = d.
Proof. unfold to_int64. intros C D. destruct (Z.ltb_spec c (2 ^ 63)), (Z.ltb_spec d (2 ^ 63)); lia. Qed.
Lemma to_int64_bound c : 0 <= c < 2 ^ 64 -> - 10 ^ 20 < to_int64 c < 10 ^ 20.
Proof. unfold to_int64. intros C. destruct (Z.ltb_spec c (2 ^ 63)); lia. Qed.
Lemma known_not_other c n x : In (c, n) class_names -> n = bytes "bidi_class(" ++ x -> False.
Proof.
  intros I E. pose proof names_short as F. rewrite forallb_forall in F. specialize (F _ I). cbn [snd] in F. rewrite E in F.
  cbn in F. discriminate.
Qed.
Theorem classString_inj c d : 0 <= c < 2 ^ 64 -> 0 <= d < 2 ^ 64 -> classString c = classString d -> c = d.
Proof.
  intros C D E. destruct (known_cases c ltac:(lia)) as [K|(A & B)], (known_cases d ltac:(lia)) as [K'|(A' & B')].
  - destruct (known_name _ K) as (n & I & EN), (known_name _ K') as (n' & I' & EN'). rewrite EN, EN' in E. injection E as <-. eapply known_inj; eauto.
  - destruct (known_name _ K) as (n & I & EN). rewrite EN, other_name in E by assumption. injection E as E. destruct (known_not_other _ _ _ I E).
  - destruct (known_name _ K') as (n & I & EN). rewrite EN, other_name in E by assumption. injection E as E. symmetry in E. destruct (known_not_other _ _ _ I E).
  - rewrite !other_name in E by assumption. apply (f_equal (fun r => match r with Ok s => s | _ => [] end)) in E. apply app_inv_head in E. apply app_inv_tail in E.
    apply itoa_inj in E; [|now apply to_int64_bound..]. now apply to_int64_inj.
Qed.

(* ---- token types ---- *)
Definition token_names : list (list Z) := map bytes ["undefined"; "eof"; "emptyDocument"; "docRoot"; "singleDataItem"; "rangeDataItem"]%string.
Lemma tokens_named : map tokenTypeString [0; 1; 2; 3; 4; 5] = map Ok token_names.
Proof. vm_compute. reflexivity. Qed.
Definition int8s : list Z := map (fun n => Z.of_nat n - 128) (seq 0 256).
Lemma int8_in i : - 128 <= i < 128 -> In i int8s.
Proof. intros I. unfold int8s. replace i with (Z.of_nat (Z.to_nat (i + 128)) - 128) by lia. apply (in_map (fun n => Z.of_nat n - 128)). apply in_seq. lia. Qed.
Definition same (a b : res (list Z)) : bool := match a, b with Ok x, Ok y => beq x y | _, _ => false end.
Lemma tokens_distinct : forallb (fun i => same (tokenTypeString i) (tokenTypeString i) && forallb (fun j => (i =? j) || negb (same (tokenTypeString i) (tokenTypeString j))) int8s) int8s = true.
Proof. vm_compute. reflexivity. Qed.
Lemma tokenTypeString_inj i j : - 128 <= i < 128 -> - 128 <= j < 128 -> tokenTypeString i = tokenTypeString j -> i = j.
Proof.
  intros I J E. pose proof tokens_distinct as F. rewrite forallb_forall in F. specialize (F _ (int8_in i I)). apply andb_true_iff in F. destruct F as (R & F).
  rewrite forallb_forall in F. specialize (F _ (int8_in j J)). rewrite <- E, R in F. cbn in F. rewrite orb_false_r in F. now apply Z.eqb_eq.
Qed.

(* ---- reading back ---- *)
Lemma cut_sep (p : Z -> bool) x u v : p x = false -> forall a b, forallb p a = true -> forallb p b = true ->
  a ++ x :: u = b ++ x :: v -> a = b /\ u = v.
Proof.
  intros X. induction a as [|y a IH]; intros [|z b] A B E; cbn [app] in E.
  - injection E as E. auto.
  - injection E as E1 E2. subst z. cbn in B. rewrite X in B. discriminate.
  - injection E as E1 E2. subst y. cbn in A. rewrite X in A. discriminate.
  - injection E as E1 E2. subst z. cbn in A, B. apply andb_true_iff in A, B. destruct (IH b (proj2 A) (proj2 B) E2) as (-> & ->). auto.
Qed.
Lemma itoa_digits v : 0 <= v -> forallb digit (itoa v) = true.
Proof. intros V. unfold itoa. destruct (Z.ltb_spec v 0); [lia|]. now apply udigits_digits. Qed.
Lemma cut_number x u v a b : digit x = false -> 0 <= a < 2 ^ 64 -> 0 <= b < 2 ^ 64 -> itoa a ++ x :: u = itoa b ++ x :: v -> a = b /\ u = v.
Proof.
  intros X A B E. apply (cut_sep digit x u v X) in E; [|apply itoa_digits; lia..]. destruct E as (E & ->). split; [|reflexivity].
  apply itoa_inj; [lia..|exact E].
Qed.
Lemma known_plain c n : In (c, n) class_names -> forallb plain n = true.
Proof. intros I. pose proof names_plain as F. rewrite forallb_forall in F. exact (F _ I). Qed.
Lemma cut_name c d n m x u v : plain x = false -> In (c, n) class_names -> In (d, m) class_names -> n ++ x :: u = m ++ x :: v -> c = d /\ u = v.
Proof.
  intros X C D E. apply (cut_sep plain x u v X) in E; [|eapply known_plain; eassumption..]. destruct E as (-> & ->). split; [|reflexivity].
  eapply known_inj; eassumption.
Qed.

(* what can be seen of a scrap *)
Definition seen (s : scrap) : Z * Z * Z := (sl s, clz s, sr s).
Definition posn (s : scrap) : Prop := 0 <= sl s < 2 ^ 32 /\ 0 <= sr s < 2 ^ 32 /\ known (clz s).

Lemma levelsString_total l : Forall posn l -> exists t, levelsString l = Ok t.
Proof.
  induction 1 as [|s l (A & B & K) F (t & IH)]; [exists []; reflexivity|]. cbn [levelsString]. destruct (known_name _ K) as (n & _ & ->). cbn [rbind]. rewrite IH. cbn [rbind]. eauto.
Qed.
Lemma levelsString_inj l : Forall posn l -> forall m, Forall posn m -> levelsString l = levelsString m -> map seen l = map seen m.
Proof.
  induction 1 as [|s l (A & B & K) F IH]; intros m M E.
  - destruct M as [|s' m (A' & B' & K') F']; [reflexivity|]. exfalso. cbn [levelsString] in E. destruct (known_name _ K') as (n & _ & EN). rewrite EN in E. cbn [rbind] in E.
    destruct (levelsString_total m F') as (t & ET). rewrite ET in E. cbn [rbind] in E. discriminate.
  - destruct (known_name _ K) as (n & I & EN). destruct (levelsString_total l F) as (t & ET). cbn [levelsString] in E. rewrite EN in E. cbn [rbind] in E. rewrite ET in E. cbn [rbind] in E.
    destruct M as [|s' m (A' & B' & K') F']; [discriminate|]. destruct (known_name _ K') as (n' & I' & EN'). destruct (levelsString_total m F') as (t' & ET'). cbn [levelsString] in E.
    rewrite EN' in E. cbn [rbind] in E. rewrite ET' in E. cbn [rbind] in E. injection E as E.
    apply cut_number in E; [|reflexivity|lia|lia]. destruct E as (L & E).
    apply (cut_name (clz s) (clz s')) in E; [|reflexivity|assumption..]. destruct E as (C & E).
    apply (cut_number 93) in E; [|reflexivity|lia|lia]. destruct E as (R & E). injection E as E.
    cbn [map]. f_equal; [unfold seen; congruence|]. apply IH; [exact F'|]. now rewrite ET, ET', E.
Qed.

Lemma runScraps_total l : Forall posn l -> exists t, runScraps l = Ok t.
Proof.
  induction 1 as [|s l (A & B & K) F (t & IH)]; [exists []; reflexivity|]. cbn [runScraps]. destruct (known_name _ K) as (n & _ & ->). cbn [rbind]. rewrite IH. cbn [rbind]. eauto.
Qed.
(* behind a name comes a blank or the closing bracket *)
Lemma runScraps_head l t x : Forall posn l -> runScraps l = Ok t -> exists y u, t ++ [x] = y :: u /\ (y = 32 \/ y = x).
Proof.
  intros F E. destruct F as [|s l (A & B & K) F].
  - injection E as <-. exists x, []. auto.
  - cbn [runScraps] in E. destruct (known_name _ K) as (n & I & EN). rewrite EN in E. cbn [rbind] in E. destruct (levelsString_total l F) as (? & _). destruct (runScraps_total l F) as (t' & ET).
    rewrite ET in E. cbn [rbind] in E. injection E as <-. exists 32. eexists. cbn [app bytes]. split; [reflexivity|auto].
Qed.
Lemma cut_end n m y y' u u' : forallb plain n = true -> forallb plain m = true -> plain y = false -> plain y' = false ->
  n ++ y :: u = m ++ y' :: u' -> n = m /\ y :: u = y' :: u'.
Proof.
  intros N M Y Y'. revert m M. induction n as [|a n IH]; intros [|b m] M E; cbn [app] in E.
  - auto.
  - exfalso. injection E as E1 E2. subst b. cbn in M. rewrite Y in M. discriminate.
  - exfalso. injection E as E1 E2. subst a. cbn in N. rewrite Y' in N. discriminate.
  - injection E as E1 E2. subst b. cbn in N, M. apply andb_true_iff in N, M. destruct (IH (proj2 N) m (proj2 M) E2) as (-> & E3). auto.
Qed.
Lemma runScraps_inj l : Forall posn l -> forall m t t', Forall posn m -> runScraps l = Ok t -> runScraps m = Ok t' -> t ++ [41] = t' ++ [41] -> map seen l = map seen m.
Proof.
  induction 1 as [|s l (A & B & K) F IH]; intros m t t' M ET ET' E.
  - injection ET as <-. destruct M as [|s' m (A' & B' & K') F']; [reflexivity|]. exfalso. cbn [runScraps] in ET'. destruct (known_name _ K') as (n & _ & EN). rewrite EN in ET'. cbn [rbind] in ET'.
    destruct (runScraps_total m F') as (t2 & E2). rewrite E2 in ET'. cbn [rbind] in ET'. injection ET' as <-. discriminate.
  - destruct (known_name _ K) as (n & I & EN). destruct (runScraps_total l F) as (t1 & E1). cbn [runScraps] in ET. rewrite EN in ET. cbn [rbind] in ET. rewrite E1 in ET. cbn [rbind] in ET. injection ET as <-.
    destruct M as [|s' m (A' & B' & K') F']; [injection ET' as <-; discriminate|]. destruct (known_name _ K') as (n' & I' & EN'). destruct (runScraps_total m F') as (t2 & E2). cbn [runScraps] in ET'.
    rewrite EN' in ET'. cbn [rbind] in ET'. rewrite E2 in ET'. cbn [rbind] in ET'. injection ET' as <-. cbn [app bytes] in E. injection E as E.
    rewrite <- !app_assoc in E. cbn [app] in E. apply (cut_number 226) in E; [|reflexivity|lia|lia]. destruct E as (L & E). injection E as E.
    rewrite <- !app_assoc in E. cbn [app] in E. apply (cut_number 124) in E; [|reflexivity|lia|lia]. destruct E as (R & E).
    rewrite <- !app_assoc in E. destruct (runScraps_head l t1 41 F E1) as (y & u & EU & YY). destruct (runScraps_head m t2 41 F' E2) as (y' & u' & EU' & YY').
    rewrite EU, EU' in E. apply cut_end in E; [|eapply known_plain; eassumption|eapply known_plain; eassumption|destruct YY; subst; reflexivity|destruct YY'; subst; reflexivity].
    destruct E as (EN2 & E). subst n'. assert (C : clz s = clz s') by (eapply known_inj; eassumption).
    cbn [map]. f_equal; [unfold seen; congruence|]. rewrite <- EU, <- EU' in E. eapply IH; eassumption.
Qed.
Lemma runString_total r : Forall posn (r_scraps r) -> exists t, runString r = Ok t.
Proof. intros F. unfold runString. destruct (runScraps_total _ F) as (t & ->). cbn [rbind]. eauto. Qed.
Lemma runString_inj r q : Forall posn (r_scraps r) -> Forall posn (r_scraps q) -> 0 <= r_len r < 2 ^ 63 -> 0 <= r_len q < 2 ^ 63 ->
  runString r = runString q -> r_dir r = r_dir q /\ r_len r = r_len q /\ map seen (r_scraps r) = map seen (r_scraps q).
Proof.
  intros F G L M E. unfold runString in E. destruct (runScraps_total _ F) as (t & ET), (runScraps_total _ G) as (t' & ET'). rewrite ET, ET' in E. cbn [rbind] in E. injection E as E.
  assert (D : r_dir r = r_dir q /\ itoa (r_len r) ++ t ++ [41] = itoa (r_len q) ++ t' ++ [41]).
  { destruct (r_dir r), (r_dir q); cbn in E; injection E as E; split; try reflexivity; try discriminate; exact E. }
  destruct D as (D & E'). split; [exact D|].
  destruct (runScraps_head _ t 41 F ET) as (y & u & EU & YY), (runScraps_head _ t' 41 G ET') as (y' & u' & EU' & YY').
  assert (DD : itoa (r_len r) = itoa (r_len q) /\ t ++ [41] = t' ++ [41]).
  { rewrite EU, EU' in *. clear - E' YY YY' L M. 
    assert (P : forall v, 0 <= v -> forallb plain (itoa v) = true).
    { intros v V. pose proof (itoa_digits v V) as D. rewrite forallb_forall in *. intros b I. specialize (D b I). unfold digit in D. unfold plain. apply andb_true_iff in D. 
      destruct (Z.eqb_spec b 45), (Z.eqb_spec b 32), (Z.eqb_spec b 93), (Z.eqb_spec b 41), (Z.eqb_spec b 124), (Z.eqb_spec b 46), (Z.eqb_spec b 194); cbn; try reflexivity; lia. }
    apply cut_end in E'; [exact E'|apply P; lia|apply P; lia|destruct YY; subst; reflexivity|destruct YY'; subst; reflexivity]. }
  destruct DD as (D1 & D2). split; [apply itoa_inj; [lia..|exact D1]|]. eapply runScraps_inj; eassumption.
Qed.

(* a single scrap *)
Lemma scrapString_total s : known (clz s) -> exists t, scrapString s = Ok t.
Proof.
  intros K. unfold scrapString. destruct (known_name _ K) as (n & _ & ->). cbn [rbind].
  destruct ((clz s =? cBRACKO) || (clz s =? cBRACKC)); [eauto|]. destruct (sl s =? u32 (sr s - 1)); [eauto|]. destruct (sl s =? sr s); eauto.
Qed.
(* how a scrap that is not a bracket is shown *)
Inductive shape := Short (l c : Z) | Empty (c : Z) | Wide (l c r : Z).
Definition shape_of (s : scrap) : shape :=
  if isbracket s || (sr s =? sl s + 1) then Short (sl s) (clz s) else if sl s =? sr s then Empty (clz s) else Wide (sl s) (clz s) (sr s).
Lemma scrapString_shape s q : posn s -> posn q -> sl s <= sr s -> sl q <= sr q -> scrapString s = scrapString q -> shape_of s = shape_of q.
Proof.
  intros (A & B & K) (A' & B' & K') LE LE' E. unfold scrapString, shape_of in *. fold (isbracket s) in E. fold (isbracket q) in E.
  assert (U : forall x, posn x -> sl x <= sr x -> (sl x =? u32 (sr x - 1)) = (sr x =? sl x + 1)).
  { clear. intros x (A & B & _) LE. unfold u32. destruct (Z.eq_dec (sr x) 0) as [Z|N].
    - assert (E1 : sl x = 0) by lia. rewrite Z, E1. reflexivity.
    - rewrite Z.mod_small by lia. destruct (Z.eqb_spec (sl x) (sr x - 1)), (Z.eqb_spec (sr x) (sl x + 1)); try reflexivity; lia. }
  destruct (known_name _ K) as (n & I & EN), (known_name _ K') as (n' & I' & EN'). rewrite EN, EN' in E. cbn [rbind] in E.
  rewrite (U s) in E by (unfold posn; auto). rewrite (U q) in E by (unfold posn; auto). clear U.
  assert (SH : forall x y u v, (x = 45 \/ x = 46) -> (y = 45 \/ y = 46) -> itoa (sl s) ++ x :: u = itoa (sl q) ++ y :: v -> sl s = sl q /\ x = y /\ u = v).
  { intros x y u v X Y EE. assert (P : forall v, 0 <= v -> forallb digit (itoa v) = true) by (intros; now apply itoa_digits).
    pose proof (P (sl s) ltac:(lia)) as P1. pose proof (P (sl q) ltac:(lia)) as P2. revert P1 P2 EE. pose proof (itoa_inj (sl s) (sl q) ltac:(lia) ltac:(lia)) as IJ. revert IJ.
    generalize (itoa (sl s)), (itoa (sl q)). intros a b IJ P1 P2 EE.
    assert (XD : digit x = false) by (destruct X; subst; reflexivity). assert (YD : digit y = false) by (destruct Y; subst; reflexivity).
    assert (Q : a = b /\ x :: u = y :: v).
    { clear IJ. revert b P2 EE. induction a as [|c a IH]; intros [|d b] P2 EE; cbn [app] in EE; [auto| | |].
      - exfalso. injection EE as E1 E2. subst d. cbn in P2. rewrite XD in P2. discriminate.
      - exfalso. injection EE as E1 E2. subst c. cbn in P1. rewrite YD in P1. discriminate.
      - injection EE as E1 E2. subst d. cbn in P1, P2. apply andb_true_iff in P1, P2. destruct (IH (proj2 P1) b (proj2 P2) E2) as (-> & E3). auto. }
    destruct Q as (Q1 & Q2). injection Q2 as -> ->. auto. }
  destruct (isbracket s || (sr s =? sl s + 1)) eqn:SS, (isbracket q || (sr q =? sl q + 1)) eqn:QQ.
  all: destruct (isbracket s), (sr s =? sl s + 1); try discriminate SS; destruct (isbracket q), (sr q =? sl q + 1); try discriminate QQ; clear SS QQ.
  all: try (destruct (sl s =? sr s)); try (destruct (sl q =? sr q)); apply (f_equal (fun r => match r with Ok t => t | _ => [] end)) in E; cbn [app bytes] in E; try (cbn in E; discriminate E).
  all: cbn [bytes map list_ascii_of_string app] in E; apply (f_equal (@tl Z)) in E; cbn [tl] in E.
  all: try (apply SH in E; [|cbn; auto|cbn; auto]; destruct E as (L & X & E); try discriminate X).
  all: try (apply (cut_name (clz s) (clz q)) in E; [|reflexivity|assumption..]; destruct E as (C & E); try congruence).
  apply (cut_number 93) in E; [|reflexivity|lia|lia]. destruct E as (R & E). congruence.
Qed.
