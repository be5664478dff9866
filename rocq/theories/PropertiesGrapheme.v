(* PropertiesGrapheme.v -- C18-C20: grapheme breaking.
   [table c r] says whether rune r is in the range table of class c, [pict r] whether it is an
   Extended_Pictographic; both are arbitrary. *)
From Coq Require Import List ZArith Lia Bool.
From Verif Require Import Base RuneWrite Segmenter SegInv Grapheme GraphemeSpec BreakSpec BreakSpecProofs GraphemeProofs GraphemeCor.
Import ListNotations.
Open Scope Z_scope.

(* a small class table: e-acute is spelt with U+0301, U+0600 is Prepend, U+1F1E6.. are RI, U+1F468 is pictographic *)
Definition tab (c r : Z) : bool :=
  if r =? 13 then c =? CR else if r =? 10 then c =? LF else if r =? 769 then c =? Extend else if r =? 1536 then c =? Prepend
  else if r =? 8205 then c =? ZWJ else if r =? 128104 then false
  else if (127462 <=? r) && (r <=? 127487) then c =? RI else if (r =? 0) then c =? Control else false.
Definition pic (r : Z) : bool := r =? 128104.

(* ---- C18 ---- *)
(* For every text whatsoever the delivered segments are the clusters of the GB rules except GB9b
   (rune 0 has its own class and counts as "other"). *)
Theorem C18_rules_but_GB9b :
  forall table pict text n, zlen text < MaxInt -> (length text + 1 < n)%nat ->
    exists s1 outs s', InitFromSlice deque_ops text (NewSegmenter [Some NewBreaker]) = Ok s1 /\
      loop deque_ops (gb_step table pict) n s1 = Ok (outs, true, s') /\
      map fst outs = segmentation (gb_break false (CodePointClassFor table pict)) text /\ Err s' = None.
Proof. exact grapheme_slice. Qed.
Print Assumptions C18_rules_but_GB9b.
(* For a text without Prepend characters these are all rules. *)
Theorem C18_grapheme_clusters :
  forall table pict text n, zlen text < MaxInt -> (length text + 1 < n)%nat ->
    Forall (fun r => CodePointClassFor table pict r <> Prepend) text ->
    exists s1 outs s', InitFromSlice deque_ops text (NewSegmenter [Some NewBreaker]) = Ok s1 /\
      loop deque_ops (gb_step table pict) n s1 = Ok (outs, true, s') /\
      map fst outs = segmentation (gb_break true (CodePointClassFor table pict)) text /\ Err s' = None.
Proof.
  intros table pict text n Tt Hn Np. rewrite <- (no_prepend _ text Np). exact (grapheme_slice table pict text n Tt Hn).
Qed.
Print Assumptions C18_grapheme_clusters.
(* From a reader: the same, each segment cut to the 4096 runes of the buffer (see C11). *)
Theorem C18_grapheme_clusters_reader :
  forall table pict its n, Forall (fun it => 1 <= snd it) its -> sizes its < MaxInt -> (length its + 1 < n)%nat ->
    Forall (fun r => CodePointClassFor table pict r <> Prepend) (map fst its) ->
    exists s1 outs s', Init deque_ops (mkrd its EOF) (NewSegmenter [Some NewBreaker]) = Ok s1 /\
      loop deque_ops (gb_step table pict) n s1 = Ok (outs, true, s') /\
      map fst outs = map (firstn (Z.to_nat 4096)) (segmentation (gb_break true (CodePointClassFor table pict)) (map fst its)) /\ Err s' = None.
Proof.
  intros table pict its n Sz Tt Hn Np. rewrite <- (no_prepend _ _ Np). exact (grapheme_reader table pict its n Sz Tt Hn).
Qed.
Print Assumptions C18_grapheme_clusters_reader.
(* "a e U+0301 CR LF man ZWJ man U+0301" *)
Definition sample : list Z := [97; 101; 769; 13; 10; 128104; 8205; 128104; 769].
Example C18_ex : Forall (fun r => CodePointClassFor tab pic r <> Prepend) sample /\
  segmentation (gb_break true (CodePointClassFor tab pic)) sample = [[97]; [101; 769]; [13; 10]; [128104; 8205; 128104; 769]] /\
  (let* s := InitFromSlice deque_ops sample (NewSegmenter [Some NewBreaker]) in
   let* (os, _) := loop deque_ops (gb_step tab pic) 20 s in Ok (map fst (fst os))) = Ok [[97]; [101; 769]; [13; 10]; [128104; 8205; 128104; 769]].
Proof. split; [repeat constructor; vm_compute; discriminate|split; vm_compute; reflexivity]. Qed.
(* NUL is a Control character of Unicode; the breaker does not treat it as one. *)
Theorem C18_nul_refuted :
  exists table pict text s1 s', In 0 text /\ table Control 0 = true /\
    InitFromSlice deque_ops text (NewSegmenter [Some NewBreaker]) = Ok s1 /\
    loop deque_ops (gb_step table pict) 9 s1 = Ok ([(text, (-10, 0))], true, s') /\ table Extend (nth 1 text 0) = true.
Proof.
  exists tab, pic, [0; 769]. eexists _, _. split; [simpl; auto|]. split; [reflexivity|].
  split; [vm_compute; reflexivity|]. split; vm_compute; reflexivity.
Qed.
Print Assumptions C18_nul_refuted.

(* ---- C19 ---- *)
(* The breaker always breaks between a Prepend character and any following character that is not
   itself glued to its left. *)
Theorem C19_break_after_prepend_refuted :
  forall table pict l p x r n, let cls := CodePointClassFor table pict in let text := l ++ p :: x :: r in
    cls p = Prepend -> is_one_of (cls x) [Extend; ZWJ; SpacingMark] = false ->
    zlen text < MaxInt -> (length text + 1 < n)%nat ->
    exists s1 outs s', InitFromSlice deque_ops text (NewSegmenter [Some NewBreaker]) = Ok s1 /\
      loop deque_ops (gb_step table pict) n s1 = Ok (outs, true, s') /\ In (S (length l)) (bounds 0 (map fst outs)).
Proof.
  intros table pict l p x r n cls text Hp Hx Tt Hn.
  destruct (grapheme_slice table pict text n Tt Hn) as (s1 & outs & s' & I & L & O & _).
  exists s1, outs, s'. split; [exact I|]. split; [exact L|]. rewrite O. exact (prepend_cut cls l p x r Hp Hx).
Qed.
Print Assumptions C19_break_after_prepend_refuted.
(* A concrete text: ARABIC NUMBER SIGN, "a". *)
Theorem C19_witness_refuted :
  exists table pict text s1 s', CodePointClassFor table pict (nth 0 text 0) = Prepend /\ CodePointClassFor table pict (nth 1 text 0) = Any /\
    InitFromSlice deque_ops text (NewSegmenter [Some NewBreaker]) = Ok s1 /\
    loop deque_ops (gb_step table pict) 9 s1 = Ok ([([1536], (9990, 0)); ([97], (-10, 0))], true, s').
Proof.
  exists tab, pic, [1536; 97]. eexists _, _. split; [reflexivity|]. split; [reflexivity|]. split; [vm_compute; reflexivity|vm_compute; reflexivity].
Qed.
Print Assumptions C19_witness_refuted.

(* ---- C20, graphemes ---- *)
Theorem C20_grapheme_flags_pair_up :
  forall table pict l ris r k n, let cls := CodePointClassFor table pict in let text := l ++ ris ++ r in
    Forall (fun x => cls x = RI) ris -> (forall c, hd_error (rev l) = Some c -> cls c <> RI) -> (0 < k < length ris)%nat ->
    zlen text < MaxInt -> (length text + 1 < n)%nat ->
    exists s1 outs s', InitFromSlice deque_ops text (NewSegmenter [Some NewBreaker]) = Ok s1 /\
      loop deque_ops (gb_step table pict) n s1 = Ok (outs, true, s') /\
      (In (length l + k)%nat (bounds 0 (map fst outs)) <-> Nat.even k = true).
Proof.
  intros table pict l ris r k n cls text Hr Hl Hk Tt Hn.
  destruct (grapheme_slice table pict text n Tt Hn) as (s1 & outs & s' & I & L & O & _).
  exists s1, outs, s'. split; [exact I|]. split; [exact L|]. rewrite O. exact (ri_pairs cls false l ris r k Hr Hl Hk).
Qed.
Print Assumptions C20_grapheme_flags_pair_up.
Example C20_grapheme_ex : Forall (fun x => CodePointClassFor tab pic x = RI) [127462; 127463; 127464] /\
  segmentation (gb_break false (CodePointClassFor tab pic)) [97; 127462; 127463; 127464; 98] = [[97]; [127462; 127463]; [127464]; [98]].
Proof. split; [repeat constructor|vm_compute; reflexivity]. Qed.
