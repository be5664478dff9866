(* PropertiesCausal.v -- C70: what has been delivered does not depend on input that has not been read.
   [bstep] is any list of breakers. *)
From Coq Require Import List ZArith Lia Bool.
From Verif Require Import Base RuneWrite Segmenter Causal SimpleWord.
From Verif Require PropertiesSegmenter Grapheme PropertiesGrapheme.
Import ListNotations.
Open Scope Z_scope.

(* The runes of the reader behind pre have not been read, nor has its end. *)
Definition unread {Q B} (x : list (Z * Z)) (s : state Q B) : Prop :=
  atEOF s = false /\ exists rd, rdr s = Some rd /\ (length x <= length (items rd))%nat.
Lemma unread_iff {Q B} x (s : state Q B) : unread x s <-> ~ fewer s (length x).
Proof.
  unfold unread, fewer, left_over. destruct (atEOF s); [split; [intros [X _]; discriminate|tauto]|]. destruct (rdr s) as [rd|].
  - split; [intros (_ & rd' & E & L); injection E as <-; lia|]. intros N. split; [reflexivity|]. exists rd. split; [reflexivity|lia].
  - split; [intros (_ & rd' & E & _); discriminate|tauto].
Qed.

(* Any calls of Next and BoundedNext, in any state: if they have not read beyond pre, they give the same
   segments and penalties whatever comes behind pre, be it text, the end or an error; and they leave a
   state that differs in nothing but the unread rest. *)
Theorem C70_unread_input :
  forall B (bstep : B -> Z -> B * Z * list Z) cs s pre x y ex ey outs s1,
    rdr s = Some (mkrd (pre ++ x) ex) -> atEOF s = false ->
    run deque_ops bstep cs s = Ok (outs, s1) -> unread x s1 ->
    exists used rest, pre = used ++ rest /\ rdr s1 = Some (mkrd (rest ++ x) ex) /\
      run deque_ops bstep cs (with_rdr (mkrd (pre ++ y) ey) s) = Ok (outs, with_rdr (mkrd (rest ++ y) ey) s1).
Proof.
  intros B bstep cs s pre x y ex ey outs s1 R E H U. apply unread_iff in U.
  destruct (run_swap deque_ops bstep x y ex ey cs s outs s1 pre (conj R E) H U) as (rest & used & P & [R1 _] & K). eauto.
Qed.
Print Assumptions C70_unread_input.
(* For a new segmenter: *)
Theorem C70_new_segmenter :
  forall B (bstep : B -> Z -> B * Z * list Z) bs cs pre x y ex ey outs s s1,
    Init deque_ops (mkrd (pre ++ x) ex) (NewSegmenter bs) = Ok s -> run deque_ops bstep cs s = Ok (outs, s1) -> unread x s1 ->
    exists s' s1', Init deque_ops (mkrd (pre ++ y) ey) (NewSegmenter bs) = Ok s' /\ run deque_ops bstep cs s' = Ok (outs, s1') /\ unread y s1'.
Proof.
  intros B bstep bs cs pre x y ex ey outs s s1 I H U. unfold Init, init in *. cbn [NewSegmenter dq] in *. injection I as <-.
  match type of H with run _ _ _ ?s0 = _ => destruct (C70_unread_input B bstep cs s0 pre x y ex ey outs s1 eq_refl eq_refl H U) as (used & rest & P & R1 & K) end.
  eexists _, _. split; [reflexivity|]. split; [exact K|]. split; [exact (proj1 U)|]. eexists. split; [reflexivity|]. cbn [items]. rewrite app_length. lia.
Qed.
Print Assumptions C70_new_segmenter.
(* "ab cd": the first word has been delivered when "c" and "d" are unread; with another rest, or with a reader that
   fails there, it is the same.  Once something has been read it may of course matter. *)
Definition sb := swb_step PropertiesSegmenter.sp.
Definition its (l : list Z) : list (Z * Z) := map (fun r => (r, 1)) l.
Definition first_of (l : list Z) (e : error) :=
  let* s := Init deque_ops (mkrd (its l) e) (NewSegmenter [NewSimpleWordBreaker]) in
  let* (o, s1) := run deque_ops sb [CNext] s in Ok (o, atEOF s1, match rdr s1 with Some rd => map fst (items rd) | None => [] end).
Example C70_ex :
  first_of [97; 98; 32; 99; 100] EOF = Ok ([Some ([97; 98], (100, 0))], false, [99; 100]) /\
  first_of [97; 98; 32; 32] EOF = Ok ([Some ([97; 98], (100, 0))], false, [32]) /\
  first_of [97; 98; 32] (ErrReader 7) = Ok ([Some ([97; 98], (100, 0))], false, []) /\
  first_of [97; 98; 99] EOF = Ok ([Some ([97; 98; 99], (100, 0))], true, []).
Proof. repeat split; vm_compute; reflexivity. Qed.
Example C70_state_ex : exists (s : state (Deque.deque) (option Grapheme.gbreaker)) s1 outs, rdr s = Some (mkrd (its [97; 769; 98] ++ its [99]) EOF) /\ atEOF s = false /\
  run deque_ops (Grapheme.gb_step PropertiesGrapheme.tab PropertiesGrapheme.pic) [CNext] s = Ok (outs, s1) /\ outs = [Some ([97; 769], (-10, 0))] /\ unread (its [99]) s1.
Proof.
  destruct (Init deque_ops (mkrd (its [97; 769; 98; 99]) EOF) (NewSegmenter [Some Grapheme.NewBreaker])) as [s| |] eqn:E; [|discriminate..].
  exists s. injection E as <-. eexists _, _. split; [reflexivity|]. split; [reflexivity|]. split; [vm_compute; reflexivity|]. split; [reflexivity|].
  split; [reflexivity|]. eexists. split; [reflexivity|]. cbn. lia.
Qed.
