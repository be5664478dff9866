(* PropertiesSegBuffer.v -- C73: the buffer of a segmenter. *)
From Coq Require Import List ZArith Lia Bool.
From Verif Require Import Base RuneWrite Segmenter SegSpec SegSim SegInv SegNext SegFacade SegTheorems SegText SegBusy SimpleWord.
From Verif Require PropertiesSegmenter.
Import ListNotations.
Open Scope Z_scope.

(* The buffer cannot be set exactly if a segment has been asked for since the last Init. *)
Theorem C73_set_before_use :
  forall (B : Type) (bstep : B -> Z -> B * Z * list Z) os bs s, history deque_ops bstep os (NewSegmenter bs) = Ok s ->
    (forall buf cap max, RuneBuffer buf cap max s = Panic <-> busy os = true) /\
    (forall buf max, Buffer buf max s = if busy os then Panic else Ok s).
Proof.
  intros B bstep os bs s H. pose proof (in_use bstep os bs s H) as E. unfold RuneBuffer, Buffer. rewrite E. split; [|reflexivity].
  intros buf cap max. destruct (busy os); [tauto|]. destruct (zlen buf >? 0); split; discriminate.
Qed.
Print Assumptions C73_set_before_use.

(* Segments are shown up to the larger of the two arguments of the last RuneBuffer call: max and cap(buf);
   4096 runes if there was none. *)
Theorem C73_limit :
  forall (B : Type) (bstep : B -> Z -> B * Z * list Z) os bs s its n,
    Forall op_ok os -> history deque_ops bstep os (NewSegmenter bs) = Ok s ->
    Forall (fun it => 1 <= snd it) its -> sizes its < MaxInt ->
    Forall (fun k => breaker_obeys bstep k (map fst its ++ [0])) (brks s) -> (length its + 1 < n)%nat ->
    let limit := Z.max (fst (buffer_of os)) (snd (buffer_of os)) in
    exists s1 s', Init deque_ops (mkrd its EOF) s = Ok s1 /\
      loop deque_ops bstep n s1 = Ok (map (fun x => (firstn (Z.to_nat limit) (fst x), snd x)) (spec_of bstep (boz s) (brks s) (map fst its)), true, s').
Proof.
  intros B bstep os bs s its n Ho H Sz Tt Hb Hn limit.
  destruct (reader_cut bstep os bs s its n Ho H Sz Tt (contract_obeys bstep _ _ Hb) Hn) as (s1 & s' & I & L & _).
  rewrite (limit_history bstep os bs s Ho H) in L. exists s1, s'. split; [exact I|exact L].
Qed.
Print Assumptions C73_limit.

(* The same if the buffer is set after Init. *)
Theorem C73_limit_after_init :
  forall (B : Type) (bstep : B -> Z -> B * Z * list Z) os bs s its n buf cap max,
    Forall op_ok os -> history deque_ops bstep os (NewSegmenter bs) = Ok s ->
    Forall (fun it => 1 <= snd it) its -> sizes its < MaxInt ->
    Forall (fun k => breaker_obeys bstep k (map fst its ++ [0])) (brks s) -> (length its + 1 < n)%nat -> buf <> [] -> zlen buf <= cap ->
    exists s1 s2 s', Init deque_ops (mkrd its EOF) s = Ok s1 /\ RuneBuffer buf cap max s1 = Ok s2 /\
      loop deque_ops bstep n s2 = Ok (map (fun x => (firstn (Z.to_nat (Z.max cap max)) (fst x), snd x)) (spec_of bstep (boz s) (brks s) (map fst its)), true, s').
Proof.
  intros B bstep os bs s its n buf cap mx Ho H Sz Tt Hb Hn Nb Hc. destruct buf as [|x buf]; [congruence|].
  exact (buffer_cut bstep os bs s its n x buf cap mx Ho H Sz Tt (contract_obeys bstep _ _ Hb) Hn Hc).
Qed.
Print Assumptions C73_limit_after_init.

(* Nothing is allocated if max <= cap(buf): the capacity stays that of the client's buffer.  It never
   exceeds the larger of the two. *)
Theorem C73_no_allocation :
  forall (B : Type) (bstep : B -> Z -> B * Z * list Z) os bs s,
    Forall op_ok os -> history deque_ops bstep os (NewSegmenter bs) = Ok s -> outnil (rbuf s) = false ->
    let (cap, max) := buffer_of os in cap <= outcap (rbuf s) <= Z.max cap max /\ (max <= cap -> outcap (rbuf s) = cap).
Proof.
  intros B bstep os bs s Ho H N. destruct (holds_history bstep os bs s Ho H) as [M W]. rewrite N in W. destruct (buffer_of os) as [cap max]. cbn [fst snd] in W. lia.
Qed.
Print Assumptions C73_no_allocation.

Definition ops : list op := [OBuffer [0; 0] 3 5; OInit (PropertiesSegmenter.bytes1 [97; 98; 99; 100; 101; 102; 103; 32; 97]); OCall CNext].
Example C73_ex : busy ops = true /\ buffer_of ops = (3, 5) /\ exists s, history deque_ops (swb_step PropertiesSegmenter.sp) ops (NewSegmenter PropertiesSegmenter.swb1) = Ok s /\
  Text s = Ok [97; 98; 99; 100; 101] /\ outcap (rbuf s) = 5 /\ outnil (rbuf s) = false.
Proof. split; [reflexivity|]. split; [reflexivity|]. eexists. split; [vm_compute; reflexivity|]. vm_compute. auto. Qed.
Example C73_again_ex : busy (ops ++ [OInit (PropertiesSegmenter.bytes1 [97])]) = false /\
  exists s, history deque_ops (swb_step PropertiesSegmenter.sp) (ops ++ [OSlice [97]; OBuffer [] 0 9; OBuffer [1] 1 1; OCall CNext]) (NewSegmenter PropertiesSegmenter.swb1) = Ok s.
Proof. split; [reflexivity|]. eexists. vm_compute. reflexivity. Qed.
