(* GraphemeTests.v -- grapheme/testfile/GraphemeBreakTest.txt of the repository, replayed on the model and on the rules of the standard, with the
   class tables of the repository.  Every test is the list of its segments.  This validates tables,
   model and specification; no theorem depends on it. *)
From Coq Require Import List ZArith Bool.
From Verif Require Import Base RuneWrite Segmenter BreakSpec Classes.
From Verif Require Grapheme GraphemeSpec.
Import ListNotations.
Open Scope Z_scope.

Definition model (text : list Z) : list (list Z) :=
  match (let* s := InitFromSlice deque_ops text (NewSegmenter [Some Grapheme.NewBreaker]) in loop deque_ops (Grapheme.gb_step gtable pict) (length text + 2) s) with
  | Ok (outs, true, _) => map fst outs
  | _ => []
  end.
Definition standard (text : list Z) : list (list Z) := segmentation (GraphemeSpec.gb_break true gclass) text.
Fixpoint same (a b : list Z) : bool := match a, b with [], [] => true | x :: a, y :: b => (x =? y) && same a b | _, _ => false end.
Fixpoint sames (a b : list (list Z)) : bool := match a, b with [], [] => true | x :: a, y :: b => same x y && sames a b | _, _ => false end.
Definition failing (f : list Z -> list (list Z)) (t : list (list Z)) : bool := negb (sames (f (concat t)) t).

Definition tests : list (list (list Z)) := [
[[32];[32]];
[[32;776];[32]];
[[32];[13]];
[[32;776];[13]];
[[32];[10]];
[[32;776];[10]];
[[32];[1]];
[[32;776];[1]];
[[32;847]];
[[32;776;847]];
[[32];[127462]];
[[32;776];[127462]];
[[32];[1536]];
[[32;776];[1536]];
[[32;2307]];
[[32;776;2307]];
[[32];[4352]];
[[32;776];[4352]];
[[32];[4448]];
[[32;776];[4448]];
[[32];[4520]];
[[32;776];[4520]];
[[32];[44032]];
[[32;776];[44032]];
[[32];[44033]];
[[32;776];[44033]];
[[32];[8986]];
[[32;776];[8986]];
[[32;768]];
[[32;776;768]];
[[32;8205]];
[[32;776;8205]];
[[32];[888]];
[[32;776];[888]];
[[32];[55296]];
[[32;776];[55296]];
[[13];[32]];
[[13];[776];[32]];
[[13];[13]];
[[13];[776];[13]];
[[13;10]];
[[13];[776];[10]];
[[13];[1]];
[[13];[776];[1]];
[[13];[847]];
[[13];[776;847]];
[[13];[127462]];
[[13];[776];[127462]];
[[13];[1536]];
[[13];[776];[1536]];
[[13];[2307]];
[[13];[776;2307]];
[[13];[4352]];
[[13];[776];[4352]];
[[13];[4448]];
[[13];[776];[4448]];
[[13];[4520]];
[[13];[776];[4520]];
[[13];[44032]];
[[13];[776];[44032]];
[[13];[44033]];
[[13];[776];[44033]];
[[13];[8986]];
[[13];[776];[8986]];
[[13];[768]];
[[13];[776;768]];
[[13];[8205]];
[[13];[776;8205]];
[[13];[888]];
[[13];[776];[888]];
[[13];[55296]];
[[13];[776];[55296]];
[[10];[32]];
[[10];[776];[32]];
[[10];[13]];
[[10];[776];[13]];
[[10];[10]];
[[10];[776];[10]];
[[10];[1]];
[[10];[776];[1]];
[[10];[847]];
[[10];[776;847]];
[[10];[127462]];
[[10];[776];[127462]];
[[10];[1536]];
[[10];[776];[1536]];
[[10];[2307]];
[[10];[776;2307]];
[[10];[4352]];
[[10];[776];[4352]];
[[10];[4448]];
[[10];[776];[4448]];
[[10];[4520]];
[[10];[776];[4520]];
[[10];[44032]];
[[10];[776];[44032]];
[[10];[44033]];
[[10];[776];[44033]];
[[10];[8986]];
[[10];[776];[8986]];
[[10];[768]];
[[10];[776;768]];
[[10];[8205]];
[[10];[776;8205]];
[[10];[888]];
[[10];[776];[888]];
[[10];[55296]];
[[10];[776];[55296]];
[[1];[32]];
[[1];[776];[32]];
[[1];[13]];
[[1];[776];[13]];
[[1];[10]];
[[1];[776];[10]];
[[1];[1]];
[[1];[776];[1]];
[[1];[847]];
[[1];[776;847]];
[[1];[127462]];
[[1];[776];[127462]];
[[1];[1536]];
[[1];[776];[1536]];
[[1];[2307]];
[[1];[776;2307]];
[[1];[4352]];
[[1];[776];[4352]];
[[1];[4448]];
[[1];[776];[4448]];
[[1];[4520]];
[[1];[776];[4520]];
[[1];[44032]];
[[1];[776];[44032]];
[[1];[44033]];
[[1];[776];[44033]];
[[1];[8986]];
[[1];[776];[8986]];
[[1];[768]];
[[1];[776;768]];
[[1];[8205]];
[[1];[776;8205]];
[[1];[888]];
[[1];[776];[888]];
[[1];[55296]];
[[1];[776];[55296]];
[[847];[32]];
[[847;776];[32]];
[[847];[13]];
[[847;776];[13]];
[[847];[10]];
[[847;776];[10]];
[[847];[1]];
[[847;776];[1]];
[[847;847]];
[[847;776;847]];
[[847];[127462]];
[[847;776];[127462]];
[[847];[1536]];
[[847;776];[1536]];
[[847;2307]];
[[847;776;2307]];
[[847];[4352]];
[[847;776];[4352]];
[[847];[4448]];
[[847;776];[4448]];
[[847];[4520]];
[[847;776];[4520]];
[[847];[44032]];
[[847;776];[44032]];
[[847];[44033]];
[[847;776];[44033]];
[[847];[8986]];
[[847;776];[8986]];
[[847;768]];
[[847;776;768]];
[[847;8205]];
[[847;776;8205]];
[[847];[888]];
[[847;776];[888]];
[[847];[55296]];
[[847;776];[55296]];
[[127462];[32]];
[[127462;776];[32]];
[[127462];[13]];
[[127462;776];[13]];
[[127462];[10]];
[[127462;776];[10]];
[[127462];[1]];
[[127462;776];[1]];
[[127462;847]];
[[127462;776;847]];
[[127462;127462]];
[[127462;776];[127462]];
[[127462];[1536]];
[[127462;776];[1536]];
[[127462;2307]];
[[127462;776;2307]];
[[127462];[4352]];
[[127462;776];[4352]];
[[127462];[4448]];
[[127462;776];[4448]];
[[127462];[4520]];
[[127462;776];[4520]];
[[127462];[44032]];
[[127462;776];[44032]];
[[127462];[44033]];
[[127462;776];[44033]];
[[127462];[8986]];
[[127462;776];[8986]];
[[127462;768]];
[[127462;776;768]];
[[127462;8205]];
[[127462;776;8205]];
[[127462];[888]];
[[127462;776];[888]];
[[127462];[55296]];
[[127462;776];[55296]];
[[1536;32]];
[[1536;776];[32]];
[[1536];[13]];
[[1536;776];[13]];
[[1536];[10]];
[[1536;776];[10]];
[[1536];[1]];
[[1536;776];[1]];
[[1536;847]];
[[1536;776;847]];
[[1536;127462]];
[[1536;776];[127462]];
[[1536;1536]];
[[1536;776];[1536]];
[[1536;2307]];
[[1536;776;2307]];
[[1536;4352]];
[[1536;776];[4352]];
[[1536;4448]];
[[1536;776];[4448]];
[[1536;4520]];
[[1536;776];[4520]];
[[1536;44032]];
[[1536;776];[44032]];
[[1536;44033]];
[[1536;776];[44033]];
[[1536;8986]];
[[1536;776];[8986]];
[[1536;768]];
[[1536;776;768]];
[[1536;8205]];
[[1536;776;8205]];
[[1536;888]];
[[1536;776];[888]];
[[1536];[55296]];
[[1536;776];[55296]];
[[2307];[32]];
[[2307;776];[32]];
[[2307];[13]];
[[2307;776];[13]];
[[2307];[10]];
[[2307;776];[10]];
[[2307];[1]];
[[2307;776];[1]];
[[2307;847]];
[[2307;776;847]];
[[2307];[127462]];
[[2307;776];[127462]];
[[2307];[1536]];
[[2307;776];[1536]];
[[2307;2307]];
[[2307;776;2307]];
[[2307];[4352]];
[[2307;776];[4352]];
[[2307];[4448]];
[[2307;776];[4448]];
[[2307];[4520]];
[[2307;776];[4520]];
[[2307];[44032]];
[[2307;776];[44032]];
[[2307];[44033]];
[[2307;776];[44033]];
[[2307];[8986]];
[[2307;776];[8986]];
[[2307;768]];
[[2307;776;768]];
[[2307;8205]];
[[2307;776;8205]];
[[2307];[888]];
[[2307;776];[888]];
[[2307];[55296]];
[[2307;776];[55296]];
[[4352];[32]];
[[4352;776];[32]];
[[4352];[13]];
[[4352;776];[13]];
[[4352];[10]];
[[4352;776];[10]];
[[4352];[1]];
[[4352;776];[1]];
[[4352;847]];
[[4352;776;847]];
[[4352];[127462]];
[[4352;776];[127462]];
[[4352];[1536]];
[[4352;776];[1536]];
[[4352;2307]];
[[4352;776;2307]];
[[4352;4352]];
[[4352;776];[4352]];
[[4352;4448]];
[[4352;776];[4448]];
[[4352];[4520]];
[[4352;776];[4520]];
[[4352;44032]];
[[4352;776];[44032]];
[[4352;44033]];
[[4352;776];[44033]];
[[4352];[8986]];
[[4352;776];[8986]];
[[4352;768]];
[[4352;776;768]];
[[4352;8205]];
[[4352;776;8205]];
[[4352];[888]];
[[4352;776];[888]];
[[4352];[55296]];
[[4352;776];[55296]];
[[4448];[32]];
[[4448;776];[32]];
[[4448];[13]];
[[4448;776];[13]];
[[4448];[10]];
[[4448;776];[10]];
[[4448];[1]];
[[4448;776];[1]];
[[4448;847]];
[[4448;776;847]];
[[4448];[127462]];
[[4448;776];[127462]];
[[4448];[1536]];
[[4448;776];[1536]];
[[4448;2307]];
[[4448;776;2307]];
[[4448];[4352]];
[[4448;776];[4352]];
[[4448;4448]];
[[4448;776];[4448]];
[[4448;4520]];
[[4448;776];[4520]];
[[4448];[44032]];
[[4448;776];[44032]];
[[4448];[44033]];
[[4448;776];[44033]];
[[4448];[8986]];
[[4448;776];[8986]];
[[4448;768]];
[[4448;776;768]];
[[4448;8205]];
[[4448;776;8205]];
[[4448];[888]];
[[4448;776];[888]];
[[4448];[55296]];
[[4448;776];[55296]];
[[4520];[32]];
[[4520;776];[32]];
[[4520];[13]];
[[4520;776];[13]];
[[4520];[10]];
[[4520;776];[10]];
[[4520];[1]];
[[4520;776];[1]];
[[4520;847]];
[[4520;776;847]];
[[4520];[127462]];
[[4520;776];[127462]];
[[4520];[1536]];
[[4520;776];[1536]];
[[4520;2307]];
[[4520;776;2307]];
[[4520];[4352]];
[[4520;776];[4352]];
[[4520];[4448]];
[[4520;776];[4448]];
[[4520;4520]];
[[4520;776];[4520]];
[[4520];[44032]];
[[4520;776];[44032]];
[[4520];[44033]];
[[4520;776];[44033]];
[[4520];[8986]];
[[4520;776];[8986]];
[[4520;768]];
[[4520;776;768]];
[[4520;8205]];
[[4520;776;8205]];
[[4520];[888]];
[[4520;776];[888]];
[[4520];[55296]];
[[4520;776];[55296]];
[[44032];[32]];
[[44032;776];[32]];
[[44032];[13]];
[[44032;776];[13]];
[[44032];[10]];
[[44032;776];[10]];
[[44032];[1]];
[[44032;776];[1]];
[[44032;847]];
[[44032;776;847]];
[[44032];[127462]];
[[44032;776];[127462]];
[[44032];[1536]];
[[44032;776];[1536]];
[[44032;2307]];
[[44032;776;2307]];
[[44032];[4352]];
[[44032;776];[4352]];
[[44032;4448]];
[[44032;776];[4448]];
[[44032;4520]];
[[44032;776];[4520]];
[[44032];[44032]];
[[44032;776];[44032]];
[[44032];[44033]];
[[44032;776];[44033]];
[[44032];[8986]];
[[44032;776];[8986]];
[[44032;768]];
[[44032;776;768]];
[[44032;8205]];
[[44032;776;8205]];
[[44032];[888]];
[[44032;776];[888]];
[[44032];[55296]];
[[44032;776];[55296]];
[[44033];[32]];
[[44033;776];[32]];
[[44033];[13]];
[[44033;776];[13]];
[[44033];[10]];
[[44033;776];[10]];
[[44033];[1]];
[[44033;776];[1]];
[[44033;847]];
[[44033;776;847]];
[[44033];[127462]];
[[44033;776];[127462]];
[[44033];[1536]];
[[44033;776];[1536]];
[[44033;2307]];
[[44033;776;2307]];
[[44033];[4352]];
[[44033;776];[4352]];
[[44033];[4448]];
[[44033;776];[4448]];
[[44033;4520]];
[[44033;776];[4520]];
[[44033];[44032]];
[[44033;776];[44032]];
[[44033];[44033]];
[[44033;776];[44033]];
[[44033];[8986]];
[[44033;776];[8986]];
[[44033;768]];
[[44033;776;768]];
[[44033;8205]];
[[44033;776;8205]];
[[44033];[888]];
[[44033;776];[888]];
[[44033];[55296]];
[[44033;776];[55296]];
[[8986];[32]];
[[8986;776];[32]];
[[8986];[13]];
[[8986;776];[13]];
[[8986];[10]];
[[8986;776];[10]];
[[8986];[1]];
[[8986;776];[1]];
[[8986;847]];
[[8986;776;847]];
[[8986];[127462]];
[[8986;776];[127462]];
[[8986];[1536]];
[[8986;776];[1536]];
[[8986;2307]];
[[8986;776;2307]];
[[8986];[4352]];
[[8986;776];[4352]];
[[8986];[4448]];
[[8986;776];[4448]];
[[8986];[4520]];
[[8986;776];[4520]];
[[8986];[44032]];
[[8986;776];[44032]];
[[8986];[44033]];
[[8986;776];[44033]];
[[8986];[8986]];
[[8986;776];[8986]];
[[8986;768]];
[[8986;776;768]];
[[8986;8205]];
[[8986;776;8205]];
[[8986];[888]];
[[8986;776];[888]];
[[8986];[55296]];
[[8986;776];[55296]];
[[768];[32]];
[[768;776];[32]];
[[768];[13]];
[[768;776];[13]];
[[768];[10]];
[[768;776];[10]];
[[768];[1]];
[[768;776];[1]];
[[768;847]];
[[768;776;847]];
[[768];[127462]];
[[768;776];[127462]];
[[768];[1536]];
[[768;776];[1536]];
[[768;2307]];
[[768;776;2307]];
[[768];[4352]];
[[768;776];[4352]];
[[768];[4448]];
[[768;776];[4448]];
[[768];[4520]];
[[768;776];[4520]];
[[768];[44032]];
[[768;776];[44032]];
[[768];[44033]];
[[768;776];[44033]];
[[768];[8986]];
[[768;776];[8986]];
[[768;768]];
[[768;776;768]];
[[768;8205]];
[[768;776;8205]];
[[768];[888]];
[[768;776];[888]];
[[768];[55296]];
[[768;776];[55296]];
[[8205];[32]];
[[8205;776];[32]];
[[8205];[13]];
[[8205;776];[13]];
[[8205];[10]];
[[8205;776];[10]];
[[8205];[1]];
[[8205;776];[1]];
[[8205;847]];
[[8205;776;847]];
[[8205];[127462]];
[[8205;776];[127462]];
[[8205];[1536]];
[[8205;776];[1536]];
[[8205;2307]];
[[8205;776;2307]];
[[8205];[4352]];
[[8205;776];[4352]];
[[8205];[4448]];
[[8205;776];[4448]];
[[8205];[4520]];
[[8205;776];[4520]];
[[8205];[44032]];
[[8205;776];[44032]];
[[8205];[44033]];
[[8205;776];[44033]];
[[8205];[8986]];
[[8205;776];[8986]];
[[8205;768]];
[[8205;776;768]];
[[8205;8205]];
[[8205;776;8205]];
[[8205];[888]];
[[8205;776];[888]];
[[8205];[55296]];
[[8205;776];[55296]];
[[888];[32]];
[[888;776];[32]];
[[888];[13]];
[[888;776];[13]];
[[888];[10]];
[[888;776];[10]];
[[888];[1]];
[[888;776];[1]];
[[888;847]];
[[888;776;847]];
[[888];[127462]];
[[888;776];[127462]];
[[888];[1536]];
[[888;776];[1536]];
[[888;2307]];
[[888;776;2307]];
[[888];[4352]];
[[888;776];[4352]];
[[888];[4448]];
[[888;776];[4448]];
[[888];[4520]];
[[888;776];[4520]];
[[888];[44032]];
[[888;776];[44032]];
[[888];[44033]];
[[888;776];[44033]];
[[888];[8986]];
[[888;776];[8986]];
[[888;768]];
[[888;776;768]];
[[888;8205]];
[[888;776;8205]];
[[888];[888]];
[[888;776];[888]];
[[888];[55296]];
[[888;776];[55296]];
[[55296];[32]];
[[55296];[776];[32]];
[[55296];[13]];
[[55296];[776];[13]];
[[55296];[10]];
[[55296];[776];[10]];
[[55296];[1]];
[[55296];[776];[1]];
[[55296];[847]];
[[55296];[776;847]];
[[55296];[127462]];
[[55296];[776];[127462]];
[[55296];[1536]];
[[55296];[776];[1536]];
[[55296];[2307]];
[[55296];[776;2307]];
[[55296];[4352]];
[[55296];[776];[4352]];
[[55296];[4448]];
[[55296];[776];[4448]];
[[55296];[4520]];
[[55296];[776];[4520]];
[[55296];[44032]];
[[55296];[776];[44032]];
[[55296];[44033]];
[[55296];[776];[44033]];
[[55296];[8986]];
[[55296];[776];[8986]];
[[55296];[768]];
[[55296];[776;768]];
[[55296];[8205]];
[[55296];[776;8205]];
[[55296];[888]];
[[55296];[776];[888]];
[[55296];[55296]];
[[55296];[776];[55296]];
[[13;10];[97];[10];[776]];
[[97;776]];
[[32;8205];[1606]];
[[1606;8205];[32]];
[[4352;4352]];
[[44032;4520];[4352]];
[[44033;4520];[4352]];
[[127462;127463];[127464];[98]];
[[97];[127462;127463];[127464];[98]];
[[97];[127462;127463;8205];[127464];[98]];
[[97];[127462;8205];[127463;127464];[98]];
[[97];[127462;127463];[127464;127465];[98]];
[[97;8205]];
[[97;776];[98]];
[[97;2307];[98]];
[[97];[1536;98]];
[[128118;127999];[128118]];
[[97;127999];[128118]];
[[97;127999];[128118;8205;128721]];
[[128118;127999;776;8205;128118;127999]];
[[128721;8205;128721]];
[[97;8205];[128721]];
[[9985;8205;9985]];
[[97;8205];[9985]]].

Example test_count : zlen tests = 672.
Proof. vm_compute. reflexivity. Qed.
(* Converting a surrogate to a string gives U+FFFD in Go, so the tests look like this to the breaker. *)
Definition converted : list (list (list Z)) :=
  map (map (map (fun r => if (55296 <=? r) && (r <=? 57343) then 65533 else r))) tests.
(* The rules of the standard pass all tests... *)
Example standard_passes : filter (failing standard) converted = [].
Proof. vm_cast_no_check (eq_refl (A := list (list (list Z))) []). Qed.
(* ... and the breaker fails those with a Prepend character before another one that is not glued to its left (C19). *)
Example model_fails : filter (failing model) converted =
  [[[1536; 32]]; [[1536; 127462]]; [[1536; 1536]]; [[1536; 4352]]; [[1536; 4448]]; [[1536; 4520]]; [[1536; 44032]]; [[1536; 44033]];
   [[1536; 8986]]; [[1536; 888]]; [[97]; [1536; 98]]].
Proof. vm_compute. reflexivity. Qed.
