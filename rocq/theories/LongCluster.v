(* LongCluster.v -- a text with a cluster of 4101 runes (witness for C21). *)
From Coq Require Import List ZArith Lia Bool.
From Verif Require Import Base RuneWrite Segmenter Utf8 Utf8Proofs Grapheme GraphemeSpec BreakSpec BreakSpecProofs GraphemeProofs GString GStringProofs.
Import ListNotations.
Open Scope Z_scope.

(* a small class table *)
Definition tab (c r : Z) : bool := if r =? 769 then c =? Extend else false.
Definition pic (r : Z) : bool := r =? 128104.
(* "a", 4100 times U+0301, "b" *)
Definition long : list Z := 97 :: repeat 769 (Z.to_nat 4100) ++ [98].

Notation brk pr := (gb_break pr (CodePointClassFor tab pic)).
Lemma marks pr : forall k left open, split_text (brk pr) left open (769 :: repeat 769 k ++ [98]) = [open ++ 769 :: repeat 769 k; [98]].
Proof.
  induction k as [|k IH]; intros left open.
  - cbn [repeat app]. rewrite split_cons. destruct pr; reflexivity.
  - cbn [repeat app]. rewrite split_cons.
    replace (brk pr (769 :: left) (769 :: repeat 769 k ++ [98])) with false by (destruct pr; reflexivity).
    rewrite IH, <- app_assoc. reflexivity.
Qed.
Lemma long_clusters pr : segmentation (brk pr) long = [97 :: repeat 769 (Z.to_nat 4100); [98]].
Proof.
  unfold long. replace (Z.to_nat 4100) with (S (Z.to_nat 4099)) by (rewrite <- Z2Nat.inj_succ; [reflexivity|lia]).
  generalize (Z.to_nat 4099). intros k. unfold segmentation. cbn [repeat app]. rewrite split_cons.
  replace (brk pr [97] (769 :: repeat 769 k ++ [98])) with false by (destruct pr; reflexivity).
  cbn [app]. rewrite marks. reflexivity.
Qed.
Lemma long_nth : Nth (built tab pic (encode long) long) 1 = Ok [204].
Proof.
  rewrite <- (app_nil_r (encode long)) at 1. change 1 with (Z.of_nat 1). rewrite built_nth.
  - rewrite (long_clusters false). vm_compute. reflexivity.
  - discriminate.
  - vm_compute. reflexivity.
  - rewrite (long_clusters false). cbn [length]. lia.
Qed.
