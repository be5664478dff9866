(* WordTests.v -- uax29/WordBreakTest.txt of the repository, replayed on the model and on the rules of the standard, with the
   class tables of the repository.  Every test is the list of its segments.  This validates tables,
   model and specification; no theorem depends on it. *)
From Coq Require Import List ZArith Bool.
From Verif Require Import Base RuneWrite Segmenter BreakSpec Classes.
From Verif Require Words WordSpec.
Import ListNotations.
Open Scope Z_scope.

Definition model (text : list Z) : list (list Z) :=
  match (let* s := InitFromSlice deque_ops text (NewSegmenter [Some Words.NewWordBreaker]) in loop deque_ops (Words.wb_step wtable pict) (length text + 2) s) with
  | Ok (outs, true, _) => map fst outs
  | _ => []
  end.
Definition standard (text : list Z) : list (list Z) := segmentation (WordSpec.wb_break false wclass) text.
Fixpoint same (a b : list Z) : bool := match a, b with [], [] => true | x :: a, y :: b => (x =? y) && same a b | _, _ => false end.
Fixpoint sames (a b : list (list Z)) : bool := match a, b with [], [] => true | x :: a, y :: b => same x y && sames a b | _, _ => false end.
Definition failing (f : list Z -> list (list Z)) (t : list (list Z)) : bool := negb (sames (f (concat t)) t).

Definition tests : list (list (list Z)) := [
[[1];[1]];
[[1;776];[1]];
[[1];[13]];
[[1;776];[13]];
[[1];[10]];
[[1;776];[10]];
[[1];[11]];
[[1;776];[11]];
[[1];[12337]];
[[1;776];[12337]];
[[1];[65]];
[[1;776];[65]];
[[1];[58]];
[[1;776];[58]];
[[1];[44]];
[[1;776];[44]];
[[1];[46]];
[[1;776];[46]];
[[1];[48]];
[[1;776];[48]];
[[1];[95]];
[[1;776];[95]];
[[1];[127462]];
[[1;776];[127462]];
[[1];[1488]];
[[1;776];[1488]];
[[1];[34]];
[[1;776];[34]];
[[1];[39]];
[[1;776];[39]];
[[1];[8986]];
[[1;776];[8986]];
[[1];[32]];
[[1;776];[32]];
[[1;173]];
[[1;776;173]];
[[1;768]];
[[1;776;768]];
[[1;8205]];
[[1;776;8205]];
[[1];[97;8288]];
[[1;776];[97;8288]];
[[1];[97];[58]];
[[1;776];[97];[58]];
[[1];[97];[39]];
[[1;776];[97];[39]];
[[1];[97];[39;8288]];
[[1;776];[97];[39;8288]];
[[1];[97];[44]];
[[1;776];[97];[44]];
[[1];[49];[58]];
[[1;776];[49];[58]];
[[1];[49];[39]];
[[1;776];[49];[39]];
[[1];[49];[44]];
[[1;776];[49];[44]];
[[1];[49];[46;8288]];
[[1;776];[49];[46;8288]];
[[13];[1]];
[[13];[776];[1]];
[[13];[13]];
[[13];[776];[13]];
[[13;10]];
[[13];[776];[10]];
[[13];[11]];
[[13];[776];[11]];
[[13];[12337]];
[[13];[776];[12337]];
[[13];[65]];
[[13];[776];[65]];
[[13];[58]];
[[13];[776];[58]];
[[13];[44]];
[[13];[776];[44]];
[[13];[46]];
[[13];[776];[46]];
[[13];[48]];
[[13];[776];[48]];
[[13];[95]];
[[13];[776];[95]];
[[13];[127462]];
[[13];[776];[127462]];
[[13];[1488]];
[[13];[776];[1488]];
[[13];[34]];
[[13];[776];[34]];
[[13];[39]];
[[13];[776];[39]];
[[13];[8986]];
[[13];[776];[8986]];
[[13];[32]];
[[13];[776];[32]];
[[13];[173]];
[[13];[776;173]];
[[13];[768]];
[[13];[776;768]];
[[13];[8205]];
[[13];[776;8205]];
[[13];[97;8288]];
[[13];[776];[97;8288]];
[[13];[97];[58]];
[[13];[776];[97];[58]];
[[13];[97];[39]];
[[13];[776];[97];[39]];
[[13];[97];[39;8288]];
[[13];[776];[97];[39;8288]];
[[13];[97];[44]];
[[13];[776];[97];[44]];
[[13];[49];[58]];
[[13];[776];[49];[58]];
[[13];[49];[39]];
[[13];[776];[49];[39]];
[[13];[49];[44]];
[[13];[776];[49];[44]];
[[13];[49];[46;8288]];
[[13];[776];[49];[46;8288]];
[[10];[1]];
[[10];[776];[1]];
[[10];[13]];
[[10];[776];[13]];
[[10];[10]];
[[10];[776];[10]];
[[10];[11]];
[[10];[776];[11]];
[[10];[12337]];
[[10];[776];[12337]];
[[10];[65]];
[[10];[776];[65]];
[[10];[58]];
[[10];[776];[58]];
[[10];[44]];
[[10];[776];[44]];
[[10];[46]];
[[10];[776];[46]];
[[10];[48]];
[[10];[776];[48]];
[[10];[95]];
[[10];[776];[95]];
[[10];[127462]];
[[10];[776];[127462]];
[[10];[1488]];
[[10];[776];[1488]];
[[10];[34]];
[[10];[776];[34]];
[[10];[39]];
[[10];[776];[39]];
[[10];[8986]];
[[10];[776];[8986]];
[[10];[32]];
[[10];[776];[32]];
[[10];[173]];
[[10];[776;173]];
[[10];[768]];
[[10];[776;768]];
[[10];[8205]];
[[10];[776;8205]];
[[10];[97;8288]];
[[10];[776];[97;8288]];
[[10];[97];[58]];
[[10];[776];[97];[58]];
[[10];[97];[39]];
[[10];[776];[97];[39]];
[[10];[97];[39;8288]];
[[10];[776];[97];[39;8288]];
[[10];[97];[44]];
[[10];[776];[97];[44]];
[[10];[49];[58]];
[[10];[776];[49];[58]];
[[10];[49];[39]];
[[10];[776];[49];[39]];
[[10];[49];[44]];
[[10];[776];[49];[44]];
[[10];[49];[46;8288]];
[[10];[776];[49];[46;8288]];
[[11];[1]];
[[11];[776];[1]];
[[11];[13]];
[[11];[776];[13]];
[[11];[10]];
[[11];[776];[10]];
[[11];[11]];
[[11];[776];[11]];
[[11];[12337]];
[[11];[776];[12337]];
[[11];[65]];
[[11];[776];[65]];
[[11];[58]];
[[11];[776];[58]];
[[11];[44]];
[[11];[776];[44]];
[[11];[46]];
[[11];[776];[46]];
[[11];[48]];
[[11];[776];[48]];
[[11];[95]];
[[11];[776];[95]];
[[11];[127462]];
[[11];[776];[127462]];
[[11];[1488]];
[[11];[776];[1488]];
[[11];[34]];
[[11];[776];[34]];
[[11];[39]];
[[11];[776];[39]];
[[11];[8986]];
[[11];[776];[8986]];
[[11];[32]];
[[11];[776];[32]];
[[11];[173]];
[[11];[776;173]];
[[11];[768]];
[[11];[776;768]];
[[11];[8205]];
[[11];[776;8205]];
[[11];[97;8288]];
[[11];[776];[97;8288]];
[[11];[97];[58]];
[[11];[776];[97];[58]];
[[11];[97];[39]];
[[11];[776];[97];[39]];
[[11];[97];[39;8288]];
[[11];[776];[97];[39;8288]];
[[11];[97];[44]];
[[11];[776];[97];[44]];
[[11];[49];[58]];
[[11];[776];[49];[58]];
[[11];[49];[39]];
[[11];[776];[49];[39]];
[[11];[49];[44]];
[[11];[776];[49];[44]];
[[11];[49];[46;8288]];
[[11];[776];[49];[46;8288]];
[[12337];[1]];
[[12337;776];[1]];
[[12337];[13]];
[[12337;776];[13]];
[[12337];[10]];
[[12337;776];[10]];
[[12337];[11]];
[[12337;776];[11]];
[[12337;12337]];
[[12337;776;12337]];
[[12337];[65]];
[[12337;776];[65]];
[[12337];[58]];
[[12337;776];[58]];
[[12337];[44]];
[[12337;776];[44]];
[[12337];[46]];
[[12337;776];[46]];
[[12337];[48]];
[[12337;776];[48]];
[[12337;95]];
[[12337;776;95]];
[[12337];[127462]];
[[12337;776];[127462]];
[[12337];[1488]];
[[12337;776];[1488]];
[[12337];[34]];
[[12337;776];[34]];
[[12337];[39]];
[[12337;776];[39]];
[[12337];[8986]];
[[12337;776];[8986]];
[[12337];[32]];
[[12337;776];[32]];
[[12337;173]];
[[12337;776;173]];
[[12337;768]];
[[12337;776;768]];
[[12337;8205]];
[[12337;776;8205]];
[[12337];[97;8288]];
[[12337;776];[97;8288]];
[[12337];[97];[58]];
[[12337;776];[97];[58]];
[[12337];[97];[39]];
[[12337;776];[97];[39]];
[[12337];[97];[39;8288]];
[[12337;776];[97];[39;8288]];
[[12337];[97];[44]];
[[12337;776];[97];[44]];
[[12337];[49];[58]];
[[12337;776];[49];[58]];
[[12337];[49];[39]];
[[12337;776];[49];[39]];
[[12337];[49];[44]];
[[12337;776];[49];[44]];
[[12337];[49];[46;8288]];
[[12337;776];[49];[46;8288]];
[[65];[1]];
[[65;776];[1]];
[[65];[13]];
[[65;776];[13]];
[[65];[10]];
[[65;776];[10]];
[[65];[11]];
[[65;776];[11]];
[[65];[12337]];
[[65;776];[12337]];
[[65;65]];
[[65;776;65]];
[[65];[58]];
[[65;776];[58]];
[[65];[44]];
[[65;776];[44]];
[[65];[46]];
[[65;776];[46]];
[[65;48]];
[[65;776;48]];
[[65;95]];
[[65;776;95]];
[[65];[127462]];
[[65;776];[127462]];
[[65;1488]];
[[65;776;1488]];
[[65];[34]];
[[65;776];[34]];
[[65];[39]];
[[65;776];[39]];
[[65];[8986]];
[[65;776];[8986]];
[[65];[32]];
[[65;776];[32]];
[[65;173]];
[[65;776;173]];
[[65;768]];
[[65;776;768]];
[[65;8205]];
[[65;776;8205]];
[[65;97;8288]];
[[65;776;97;8288]];
[[65;97];[58]];
[[65;776;97];[58]];
[[65;97];[39]];
[[65;776;97];[39]];
[[65;97];[39;8288]];
[[65;776;97];[39;8288]];
[[65;97];[44]];
[[65;776;97];[44]];
[[65;49];[58]];
[[65;776;49];[58]];
[[65;49];[39]];
[[65;776;49];[39]];
[[65;49];[44]];
[[65;776;49];[44]];
[[65;49];[46;8288]];
[[65;776;49];[46;8288]];
[[58];[1]];
[[58;776];[1]];
[[58];[13]];
[[58;776];[13]];
[[58];[10]];
[[58;776];[10]];
[[58];[11]];
[[58;776];[11]];
[[58];[12337]];
[[58;776];[12337]];
[[58];[65]];
[[58;776];[65]];
[[58];[58]];
[[58;776];[58]];
[[58];[44]];
[[58;776];[44]];
[[58];[46]];
[[58;776];[46]];
[[58];[48]];
[[58;776];[48]];
[[58];[95]];
[[58;776];[95]];
[[58];[127462]];
[[58;776];[127462]];
[[58];[1488]];
[[58;776];[1488]];
[[58];[34]];
[[58;776];[34]];
[[58];[39]];
[[58;776];[39]];
[[58];[8986]];
[[58;776];[8986]];
[[58];[32]];
[[58;776];[32]];
[[58;173]];
[[58;776;173]];
[[58;768]];
[[58;776;768]];
[[58;8205]];
[[58;776;8205]];
[[58];[97;8288]];
[[58;776];[97;8288]];
[[58];[97];[58]];
[[58;776];[97];[58]];
[[58];[97];[39]];
[[58;776];[97];[39]];
[[58];[97];[39;8288]];
[[58;776];[97];[39;8288]];
[[58];[97];[44]];
[[58;776];[97];[44]];
[[58];[49];[58]];
[[58;776];[49];[58]];
[[58];[49];[39]];
[[58;776];[49];[39]];
[[58];[49];[44]];
[[58;776];[49];[44]];
[[58];[49];[46;8288]];
[[58;776];[49];[46;8288]];
[[44];[1]];
[[44;776];[1]];
[[44];[13]];
[[44;776];[13]];
[[44];[10]];
[[44;776];[10]];
[[44];[11]];
[[44;776];[11]];
[[44];[12337]];
[[44;776];[12337]];
[[44];[65]];
[[44;776];[65]];
[[44];[58]];
[[44;776];[58]];
[[44];[44]];
[[44;776];[44]];
[[44];[46]];
[[44;776];[46]];
[[44];[48]];
[[44;776];[48]];
[[44];[95]];
[[44;776];[95]];
[[44];[127462]];
[[44;776];[127462]];
[[44];[1488]];
[[44;776];[1488]];
[[44];[34]];
[[44;776];[34]];
[[44];[39]];
[[44;776];[39]];
[[44];[8986]];
[[44;776];[8986]];
[[44];[32]];
[[44;776];[32]];
[[44;173]];
[[44;776;173]];
[[44;768]];
[[44;776;768]];
[[44;8205]];
[[44;776;8205]];
[[44];[97;8288]];
[[44;776];[97;8288]];
[[44];[97];[58]];
[[44;776];[97];[58]];
[[44];[97];[39]];
[[44;776];[97];[39]];
[[44];[97];[39;8288]];
[[44;776];[97];[39;8288]];
[[44];[97];[44]];
[[44;776];[97];[44]];
[[44];[49];[58]];
[[44;776];[49];[58]];
[[44];[49];[39]];
[[44;776];[49];[39]];
[[44];[49];[44]];
[[44;776];[49];[44]];
[[44];[49];[46;8288]];
[[44;776];[49];[46;8288]];
[[46];[1]];
[[46;776];[1]];
[[46];[13]];
[[46;776];[13]];
[[46];[10]];
[[46;776];[10]];
[[46];[11]];
[[46;776];[11]];
[[46];[12337]];
[[46;776];[12337]];
[[46];[65]];
[[46;776];[65]];
[[46];[58]];
[[46;776];[58]];
[[46];[44]];
[[46;776];[44]];
[[46];[46]];
[[46;776];[46]];
[[46];[48]];
[[46;776];[48]];
[[46];[95]];
[[46;776];[95]];
[[46];[127462]];
[[46;776];[127462]];
[[46];[1488]];
[[46;776];[1488]];
[[46];[34]];
[[46;776];[34]];
[[46];[39]];
[[46;776];[39]];
[[46];[8986]];
[[46;776];[8986]];
[[46];[32]];
[[46;776];[32]];
[[46;173]];
[[46;776;173]];
[[46;768]];
[[46;776;768]];
[[46;8205]];
[[46;776;8205]];
[[46];[97;8288]];
[[46;776];[97;8288]];
[[46];[97];[58]];
[[46;776];[97];[58]];
[[46];[97];[39]];
[[46;776];[97];[39]];
[[46];[97];[39;8288]];
[[46;776];[97];[39;8288]];
[[46];[97];[44]];
[[46;776];[97];[44]];
[[46];[49];[58]];
[[46;776];[49];[58]];
[[46];[49];[39]];
[[46;776];[49];[39]];
[[46];[49];[44]];
[[46;776];[49];[44]];
[[46];[49];[46;8288]];
[[46;776];[49];[46;8288]];
[[48];[1]];
[[48;776];[1]];
[[48];[13]];
[[48;776];[13]];
[[48];[10]];
[[48;776];[10]];
[[48];[11]];
[[48;776];[11]];
[[48];[12337]];
[[48;776];[12337]];
[[48;65]];
[[48;776;65]];
[[48];[58]];
[[48;776];[58]];
[[48];[44]];
[[48;776];[44]];
[[48];[46]];
[[48;776];[46]];
[[48;48]];
[[48;776;48]];
[[48;95]];
[[48;776;95]];
[[48];[127462]];
[[48;776];[127462]];
[[48;1488]];
[[48;776;1488]];
[[48];[34]];
[[48;776];[34]];
[[48];[39]];
[[48;776];[39]];
[[48];[8986]];
[[48;776];[8986]];
[[48];[32]];
[[48;776];[32]];
[[48;173]];
[[48;776;173]];
[[48;768]];
[[48;776;768]];
[[48;8205]];
[[48;776;8205]];
[[48;97;8288]];
[[48;776;97;8288]];
[[48;97];[58]];
[[48;776;97];[58]];
[[48;97];[39]];
[[48;776;97];[39]];
[[48;97];[39;8288]];
[[48;776;97];[39;8288]];
[[48;97];[44]];
[[48;776;97];[44]];
[[48;49];[58]];
[[48;776;49];[58]];
[[48;49];[39]];
[[48;776;49];[39]];
[[48;49];[44]];
[[48;776;49];[44]];
[[48;49];[46;8288]];
[[48;776;49];[46;8288]];
[[95];[1]];
[[95;776];[1]];
[[95];[13]];
[[95;776];[13]];
[[95];[10]];
[[95;776];[10]];
[[95];[11]];
[[95;776];[11]];
[[95;12337]];
[[95;776;12337]];
[[95;65]];
[[95;776;65]];
[[95];[58]];
[[95;776];[58]];
[[95];[44]];
[[95;776];[44]];
[[95];[46]];
[[95;776];[46]];
[[95;48]];
[[95;776;48]];
[[95;95]];
[[95;776;95]];
[[95];[127462]];
[[95;776];[127462]];
[[95;1488]];
[[95;776;1488]];
[[95];[34]];
[[95;776];[34]];
[[95];[39]];
[[95;776];[39]];
[[95];[8986]];
[[95;776];[8986]];
[[95];[32]];
[[95;776];[32]];
[[95;173]];
[[95;776;173]];
[[95;768]];
[[95;776;768]];
[[95;8205]];
[[95;776;8205]];
[[95;97;8288]];
[[95;776;97;8288]];
[[95;97];[58]];
[[95;776;97];[58]];
[[95;97];[39]];
[[95;776;97];[39]];
[[95;97];[39;8288]];
[[95;776;97];[39;8288]];
[[95;97];[44]];
[[95;776;97];[44]];
[[95;49];[58]];
[[95;776;49];[58]];
[[95;49];[39]];
[[95;776;49];[39]];
[[95;49];[44]];
[[95;776;49];[44]];
[[95;49];[46;8288]];
[[95;776;49];[46;8288]];
[[127462];[1]];
[[127462;776];[1]];
[[127462];[13]];
[[127462;776];[13]];
[[127462];[10]];
[[127462;776];[10]];
[[127462];[11]];
[[127462;776];[11]];
[[127462];[12337]];
[[127462;776];[12337]];
[[127462];[65]];
[[127462;776];[65]];
[[127462];[58]];
[[127462;776];[58]];
[[127462];[44]];
[[127462;776];[44]];
[[127462];[46]];
[[127462;776];[46]];
[[127462];[48]];
[[127462;776];[48]];
[[127462];[95]];
[[127462;776];[95]];
[[127462;127462]];
[[127462;776;127462]];
[[127462];[1488]];
[[127462;776];[1488]];
[[127462];[34]];
[[127462;776];[34]];
[[127462];[39]];
[[127462;776];[39]];
[[127462];[8986]];
[[127462;776];[8986]];
[[127462];[32]];
[[127462;776];[32]];
[[127462;173]];
[[127462;776;173]];
[[127462;768]];
[[127462;776;768]];
[[127462;8205]];
[[127462;776;8205]];
[[127462];[97;8288]];
[[127462;776];[97;8288]];
[[127462];[97];[58]];
[[127462;776];[97];[58]];
[[127462];[97];[39]];
[[127462;776];[97];[39]];
[[127462];[97];[39;8288]];
[[127462;776];[97];[39;8288]];
[[127462];[97];[44]];
[[127462;776];[97];[44]];
[[127462];[49];[58]];
[[127462;776];[49];[58]];
[[127462];[49];[39]];
[[127462;776];[49];[39]];
[[127462];[49];[44]];
[[127462;776];[49];[44]];
[[127462];[49];[46;8288]];
[[127462;776];[49];[46;8288]];
[[1488];[1]];
[[1488;776];[1]];
[[1488];[13]];
[[1488;776];[13]];
[[1488];[10]];
[[1488;776];[10]];
[[1488];[11]];
[[1488;776];[11]];
[[1488];[12337]];
[[1488;776];[12337]];
[[1488;65]];
[[1488;776;65]];
[[1488];[58]];
[[1488;776];[58]];
[[1488];[44]];
[[1488;776];[44]];
[[1488];[46]];
[[1488;776];[46]];
[[1488;48]];
[[1488;776;48]];
[[1488;95]];
[[1488;776;95]];
[[1488];[127462]];
[[1488;776];[127462]];
[[1488;1488]];
[[1488;776;1488]];
[[1488];[34]];
[[1488;776];[34]];
[[1488;39]];
[[1488;776;39]];
[[1488];[8986]];
[[1488;776];[8986]];
[[1488];[32]];
[[1488;776];[32]];
[[1488;173]];
[[1488;776;173]];
[[1488;768]];
[[1488;776;768]];
[[1488;8205]];
[[1488;776;8205]];
[[1488;97;8288]];
[[1488;776;97;8288]];
[[1488;97];[58]];
[[1488;776;97];[58]];
[[1488;97];[39]];
[[1488;776;97];[39]];
[[1488;97];[39;8288]];
[[1488;776;97];[39;8288]];
[[1488;97];[44]];
[[1488;776;97];[44]];
[[1488;49];[58]];
[[1488;776;49];[58]];
[[1488;49];[39]];
[[1488;776;49];[39]];
[[1488;49];[44]];
[[1488;776;49];[44]];
[[1488;49];[46;8288]];
[[1488;776;49];[46;8288]];
[[34];[1]];
[[34;776];[1]];
[[34];[13]];
[[34;776];[13]];
[[34];[10]];
[[34;776];[10]];
[[34];[11]];
[[34;776];[11]];
[[34];[12337]];
[[34;776];[12337]];
[[34];[65]];
[[34;776];[65]];
[[34];[58]];
[[34;776];[58]];
[[34];[44]];
[[34;776];[44]];
[[34];[46]];
[[34;776];[46]];
[[34];[48]];
[[34;776];[48]];
[[34];[95]];
[[34;776];[95]];
[[34];[127462]];
[[34;776];[127462]];
[[34];[1488]];
[[34;776];[1488]];
[[34];[34]];
[[34;776];[34]];
[[34];[39]];
[[34;776];[39]];
[[34];[8986]];
[[34;776];[8986]];
[[34];[32]];
[[34;776];[32]];
[[34;173]];
[[34;776;173]];
[[34;768]];
[[34;776;768]];
[[34;8205]];
[[34;776;8205]];
[[34];[97;8288]];
[[34;776];[97;8288]];
[[34];[97];[58]];
[[34;776];[97];[58]];
[[34];[97];[39]];
[[34;776];[97];[39]];
[[34];[97];[39;8288]];
[[34;776];[97];[39;8288]];
[[34];[97];[44]];
[[34;776];[97];[44]];
[[34];[49];[58]];
[[34;776];[49];[58]];
[[34];[49];[39]];
[[34;776];[49];[39]];
[[34];[49];[44]];
[[34;776];[49];[44]];
[[34];[49];[46;8288]];
[[34;776];[49];[46;8288]];
[[39];[1]];
[[39;776];[1]];
[[39];[13]];
[[39;776];[13]];
[[39];[10]];
[[39;776];[10]];
[[39];[11]];
[[39;776];[11]];
[[39];[12337]];
[[39;776];[12337]];
[[39];[65]];
[[39;776];[65]];
[[39];[58]];
[[39;776];[58]];
[[39];[44]];
[[39;776];[44]];
[[39];[46]];
[[39;776];[46]];
[[39];[48]];
[[39;776];[48]];
[[39];[95]];
[[39;776];[95]];
[[39];[127462]];
[[39;776];[127462]];
[[39];[1488]];
[[39;776];[1488]];
[[39];[34]];
[[39;776];[34]];
[[39];[39]];
[[39;776];[39]];
[[39];[8986]];
[[39;776];[8986]];
[[39];[32]];
[[39;776];[32]];
[[39;173]];
[[39;776;173]];
[[39;768]];
[[39;776;768]];
[[39;8205]];
[[39;776;8205]];
[[39];[97;8288]];
[[39;776];[97;8288]];
[[39];[97];[58]];
[[39;776];[97];[58]];
[[39];[97];[39]];
[[39;776];[97];[39]];
[[39];[97];[39;8288]];
[[39;776];[97];[39;8288]];
[[39];[97];[44]];
[[39;776];[97];[44]];
[[39];[49];[58]];
[[39;776];[49];[58]];
[[39];[49];[39]];
[[39;776];[49];[39]];
[[39];[49];[44]];
[[39;776];[49];[44]];
[[39];[49];[46;8288]];
[[39;776];[49];[46;8288]];
[[8986];[1]];
[[8986;776];[1]];
[[8986];[13]];
[[8986;776];[13]];
[[8986];[10]];
[[8986;776];[10]];
[[8986];[11]];
[[8986;776];[11]];
[[8986];[12337]];
[[8986;776];[12337]];
[[8986];[65]];
[[8986;776];[65]];
[[8986];[58]];
[[8986;776];[58]];
[[8986];[44]];
[[8986;776];[44]];
[[8986];[46]];
[[8986;776];[46]];
[[8986];[48]];
[[8986;776];[48]];
[[8986];[95]];
[[8986;776];[95]];
[[8986];[127462]];
[[8986;776];[127462]];
[[8986];[1488]];
[[8986;776];[1488]];
[[8986];[34]];
[[8986;776];[34]];
[[8986];[39]];
[[8986;776];[39]];
[[8986];[8986]];
[[8986;776];[8986]];
[[8986];[32]];
[[8986;776];[32]];
[[8986;173]];
[[8986;776;173]];
[[8986;768]];
[[8986;776;768]];
[[8986;8205]];
[[8986;776;8205]];
[[8986];[97;8288]];
[[8986;776];[97;8288]];
[[8986];[97];[58]];
[[8986;776];[97];[58]];
[[8986];[97];[39]];
[[8986;776];[97];[39]];
[[8986];[97];[39;8288]];
[[8986;776];[97];[39;8288]];
[[8986];[97];[44]];
[[8986;776];[97];[44]];
[[8986];[49];[58]];
[[8986;776];[49];[58]];
[[8986];[49];[39]];
[[8986;776];[49];[39]];
[[8986];[49];[44]];
[[8986;776];[49];[44]];
[[8986];[49];[46;8288]];
[[8986;776];[49];[46;8288]];
[[32];[1]];
[[32;776];[1]];
[[32];[13]];
[[32;776];[13]];
[[32];[10]];
[[32;776];[10]];
[[32];[11]];
[[32;776];[11]];
[[32];[12337]];
[[32;776];[12337]];
[[32];[65]];
[[32;776];[65]];
[[32];[58]];
[[32;776];[58]];
[[32];[44]];
[[32;776];[44]];
[[32];[46]];
[[32;776];[46]];
[[32];[48]];
[[32;776];[48]];
[[32];[95]];
[[32;776];[95]];
[[32];[127462]];
[[32;776];[127462]];
[[32];[1488]];
[[32;776];[1488]];
[[32];[34]];
[[32;776];[34]];
[[32];[39]];
[[32;776];[39]];
[[32];[8986]];
[[32;776];[8986]];
[[32;32]];
[[32;776];[32]];
[[32;173]];
[[32;776;173]];
[[32;768]];
[[32;776;768]];
[[32;8205]];
[[32;776;8205]];
[[32];[97;8288]];
[[32;776];[97;8288]];
[[32];[97];[58]];
[[32;776];[97];[58]];
[[32];[97];[39]];
[[32;776];[97];[39]];
[[32];[97];[39;8288]];
[[32;776];[97];[39;8288]];
[[32];[97];[44]];
[[32;776];[97];[44]];
[[32];[49];[58]];
[[32;776];[49];[58]];
[[32];[49];[39]];
[[32;776];[49];[39]];
[[32];[49];[44]];
[[32;776];[49];[44]];
[[32];[49];[46;8288]];
[[32;776];[49];[46;8288]];
[[173];[1]];
[[173;776];[1]];
[[173];[13]];
[[173;776];[13]];
[[173];[10]];
[[173;776];[10]];
[[173];[11]];
[[173;776];[11]];
[[173];[12337]];
[[173;776];[12337]];
[[173];[65]];
[[173;776];[65]];
[[173];[58]];
[[173;776];[58]];
[[173];[44]];
[[173;776];[44]];
[[173];[46]];
[[173;776];[46]];
[[173];[48]];
[[173;776];[48]];
[[173];[95]];
[[173;776];[95]];
[[173];[127462]];
[[173;776];[127462]];
[[173];[1488]];
[[173;776];[1488]];
[[173];[34]];
[[173;776];[34]];
[[173];[39]];
[[173;776];[39]];
[[173];[8986]];
[[173;776];[8986]];
[[173];[32]];
[[173;776];[32]];
[[173;173]];
[[173;776;173]];
[[173;768]];
[[173;776;768]];
[[173;8205]];
[[173;776;8205]];
[[173];[97;8288]];
[[173;776];[97;8288]];
[[173];[97];[58]];
[[173;776];[97];[58]];
[[173];[97];[39]];
[[173;776];[97];[39]];
[[173];[97];[39;8288]];
[[173;776];[97];[39;8288]];
[[173];[97];[44]];
[[173;776];[97];[44]];
[[173];[49];[58]];
[[173;776];[49];[58]];
[[173];[49];[39]];
[[173;776];[49];[39]];
[[173];[49];[44]];
[[173;776];[49];[44]];
[[173];[49];[46;8288]];
[[173;776];[49];[46;8288]];
[[768];[1]];
[[768;776];[1]];
[[768];[13]];
[[768;776];[13]];
[[768];[10]];
[[768;776];[10]];
[[768];[11]];
[[768;776];[11]];
[[768];[12337]];
[[768;776];[12337]];
[[768];[65]];
[[768;776];[65]];
[[768];[58]];
[[768;776];[58]];
[[768];[44]];
[[768;776];[44]];
[[768];[46]];
[[768;776];[46]];
[[768];[48]];
[[768;776];[48]];
[[768];[95]];
[[768;776];[95]];
[[768];[127462]];
[[768;776];[127462]];
[[768];[1488]];
[[768;776];[1488]];
[[768];[34]];
[[768;776];[34]];
[[768];[39]];
[[768;776];[39]];
[[768];[8986]];
[[768;776];[8986]];
[[768];[32]];
[[768;776];[32]];
[[768;173]];
[[768;776;173]];
[[768;768]];
[[768;776;768]];
[[768;8205]];
[[768;776;8205]];
[[768];[97;8288]];
[[768;776];[97;8288]];
[[768];[97];[58]];
[[768;776];[97];[58]];
[[768];[97];[39]];
[[768;776];[97];[39]];
[[768];[97];[39;8288]];
[[768;776];[97];[39;8288]];
[[768];[97];[44]];
[[768;776];[97];[44]];
[[768];[49];[58]];
[[768;776];[49];[58]];
[[768];[49];[39]];
[[768;776];[49];[39]];
[[768];[49];[44]];
[[768;776];[49];[44]];
[[768];[49];[46;8288]];
[[768;776];[49];[46;8288]];
[[8205];[1]];
[[8205;776];[1]];
[[8205];[13]];
[[8205;776];[13]];
[[8205];[10]];
[[8205;776];[10]];
[[8205];[11]];
[[8205;776];[11]];
[[8205];[12337]];
[[8205;776];[12337]];
[[8205];[65]];
[[8205;776];[65]];
[[8205];[58]];
[[8205;776];[58]];
[[8205];[44]];
[[8205;776];[44]];
[[8205];[46]];
[[8205;776];[46]];
[[8205];[48]];
[[8205;776];[48]];
[[8205];[95]];
[[8205;776];[95]];
[[8205];[127462]];
[[8205;776];[127462]];
[[8205];[1488]];
[[8205;776];[1488]];
[[8205];[34]];
[[8205;776];[34]];
[[8205];[39]];
[[8205;776];[39]];
[[8205;8986]];
[[8205;776];[8986]];
[[8205];[32]];
[[8205;776];[32]];
[[8205;173]];
[[8205;776;173]];
[[8205;768]];
[[8205;776;768]];
[[8205;8205]];
[[8205;776;8205]];
[[8205];[97;8288]];
[[8205;776];[97;8288]];
[[8205];[97];[58]];
[[8205;776];[97];[58]];
[[8205];[97];[39]];
[[8205;776];[97];[39]];
[[8205];[97];[39;8288]];
[[8205;776];[97];[39;8288]];
[[8205];[97];[44]];
[[8205;776];[97];[44]];
[[8205];[49];[58]];
[[8205;776];[49];[58]];
[[8205];[49];[39]];
[[8205;776];[49];[39]];
[[8205];[49];[44]];
[[8205;776];[49];[44]];
[[8205];[49];[46;8288]];
[[8205;776];[49];[46;8288]];
[[97;8288];[1]];
[[97;8288;776];[1]];
[[97;8288];[13]];
[[97;8288;776];[13]];
[[97;8288];[10]];
[[97;8288;776];[10]];
[[97;8288];[11]];
[[97;8288;776];[11]];
[[97;8288];[12337]];
[[97;8288;776];[12337]];
[[97;8288;65]];
[[97;8288;776;65]];
[[97;8288];[58]];
[[97;8288;776];[58]];
[[97;8288];[44]];
[[97;8288;776];[44]];
[[97;8288];[46]];
[[97;8288;776];[46]];
[[97;8288;48]];
[[97;8288;776;48]];
[[97;8288;95]];
[[97;8288;776;95]];
[[97;8288];[127462]];
[[97;8288;776];[127462]];
[[97;8288;1488]];
[[97;8288;776;1488]];
[[97;8288];[34]];
[[97;8288;776];[34]];
[[97;8288];[39]];
[[97;8288;776];[39]];
[[97;8288];[8986]];
[[97;8288;776];[8986]];
[[97;8288];[32]];
[[97;8288;776];[32]];
[[97;8288;173]];
[[97;8288;776;173]];
[[97;8288;768]];
[[97;8288;776;768]];
[[97;8288;8205]];
[[97;8288;776;8205]];
[[97;8288;97;8288]];
[[97;8288;776;97;8288]];
[[97;8288;97];[58]];
[[97;8288;776;97];[58]];
[[97;8288;97];[39]];
[[97;8288;776;97];[39]];
[[97;8288;97];[39;8288]];
[[97;8288;776;97];[39;8288]];
[[97;8288;97];[44]];
[[97;8288;776;97];[44]];
[[97;8288;49];[58]];
[[97;8288;776;49];[58]];
[[97;8288;49];[39]];
[[97;8288;776;49];[39]];
[[97;8288;49];[44]];
[[97;8288;776;49];[44]];
[[97;8288;49];[46;8288]];
[[97;8288;776;49];[46;8288]];
[[97];[58];[1]];
[[97];[58;776];[1]];
[[97];[58];[13]];
[[97];[58;776];[13]];
[[97];[58];[10]];
[[97];[58;776];[10]];
[[97];[58];[11]];
[[97];[58;776];[11]];
[[97];[58];[12337]];
[[97];[58;776];[12337]];
[[97;58;65]];
[[97;58;776;65]];
[[97];[58];[58]];
[[97];[58;776];[58]];
[[97];[58];[44]];
[[97];[58;776];[44]];
[[97];[58];[46]];
[[97];[58;776];[46]];
[[97];[58];[48]];
[[97];[58;776];[48]];
[[97];[58];[95]];
[[97];[58;776];[95]];
[[97];[58];[127462]];
[[97];[58;776];[127462]];
[[97;58;1488]];
[[97;58;776;1488]];
[[97];[58];[34]];
[[97];[58;776];[34]];
[[97];[58];[39]];
[[97];[58;776];[39]];
[[97];[58];[8986]];
[[97];[58;776];[8986]];
[[97];[58];[32]];
[[97];[58;776];[32]];
[[97];[58;173]];
[[97];[58;776;173]];
[[97];[58;768]];
[[97];[58;776;768]];
[[97];[58;8205]];
[[97];[58;776;8205]];
[[97;58;97;8288]];
[[97;58;776;97;8288]];
[[97;58;97];[58]];
[[97;58;776;97];[58]];
[[97;58;97];[39]];
[[97;58;776;97];[39]];
[[97;58;97];[39;8288]];
[[97;58;776;97];[39;8288]];
[[97;58;97];[44]];
[[97;58;776;97];[44]];
[[97];[58];[49];[58]];
[[97];[58;776];[49];[58]];
[[97];[58];[49];[39]];
[[97];[58;776];[49];[39]];
[[97];[58];[49];[44]];
[[97];[58;776];[49];[44]];
[[97];[58];[49];[46;8288]];
[[97];[58;776];[49];[46;8288]];
[[97];[39];[1]];
[[97];[39;776];[1]];
[[97];[39];[13]];
[[97];[39;776];[13]];
[[97];[39];[10]];
[[97];[39;776];[10]];
[[97];[39];[11]];
[[97];[39;776];[11]];
[[97];[39];[12337]];
[[97];[39;776];[12337]];
[[97;39;65]];
[[97;39;776;65]];
[[97];[39];[58]];
[[97];[39;776];[58]];
[[97];[39];[44]];
[[97];[39;776];[44]];
[[97];[39];[46]];
[[97];[39;776];[46]];
[[97];[39];[48]];
[[97];[39;776];[48]];
[[97];[39];[95]];
[[97];[39;776];[95]];
[[97];[39];[127462]];
[[97];[39;776];[127462]];
[[97;39;1488]];
[[97;39;776;1488]];
[[97];[39];[34]];
[[97];[39;776];[34]];
[[97];[39];[39]];
[[97];[39;776];[39]];
[[97];[39];[8986]];
[[97];[39;776];[8986]];
[[97];[39];[32]];
[[97];[39;776];[32]];
[[97];[39;173]];
[[97];[39;776;173]];
[[97];[39;768]];
[[97];[39;776;768]];
[[97];[39;8205]];
[[97];[39;776;8205]];
[[97;39;97;8288]];
[[97;39;776;97;8288]];
[[97;39;97];[58]];
[[97;39;776;97];[58]];
[[97;39;97];[39]];
[[97;39;776;97];[39]];
[[97;39;97];[39;8288]];
[[97;39;776;97];[39;8288]];
[[97;39;97];[44]];
[[97;39;776;97];[44]];
[[97];[39];[49];[58]];
[[97];[39;776];[49];[58]];
[[97];[39];[49];[39]];
[[97];[39;776];[49];[39]];
[[97];[39];[49];[44]];
[[97];[39;776];[49];[44]];
[[97];[39];[49];[46;8288]];
[[97];[39;776];[49];[46;8288]];
[[97];[39;8288];[1]];
[[97];[39;8288;776];[1]];
[[97];[39;8288];[13]];
[[97];[39;8288;776];[13]];
[[97];[39;8288];[10]];
[[97];[39;8288;776];[10]];
[[97];[39;8288];[11]];
[[97];[39;8288;776];[11]];
[[97];[39;8288];[12337]];
[[97];[39;8288;776];[12337]];
[[97;39;8288;65]];
[[97;39;8288;776;65]];
[[97];[39;8288];[58]];
[[97];[39;8288;776];[58]];
[[97];[39;8288];[44]];
[[97];[39;8288;776];[44]];
[[97];[39;8288];[46]];
[[97];[39;8288;776];[46]];
[[97];[39;8288];[48]];
[[97];[39;8288;776];[48]];
[[97];[39;8288];[95]];
[[97];[39;8288;776];[95]];
[[97];[39;8288];[127462]];
[[97];[39;8288;776];[127462]];
[[97;39;8288;1488]];
[[97;39;8288;776;1488]];
[[97];[39;8288];[34]];
[[97];[39;8288;776];[34]];
[[97];[39;8288];[39]];
[[97];[39;8288;776];[39]];
[[97];[39;8288];[8986]];
[[97];[39;8288;776];[8986]];
[[97];[39;8288];[32]];
[[97];[39;8288;776];[32]];
[[97];[39;8288;173]];
[[97];[39;8288;776;173]];
[[97];[39;8288;768]];
[[97];[39;8288;776;768]];
[[97];[39;8288;8205]];
[[97];[39;8288;776;8205]];
[[97;39;8288;97;8288]];
[[97;39;8288;776;97;8288]];
[[97;39;8288;97];[58]];
[[97;39;8288;776;97];[58]];
[[97;39;8288;97];[39]];
[[97;39;8288;776;97];[39]];
[[97;39;8288;97];[39;8288]];
[[97;39;8288;776;97];[39;8288]];
[[97;39;8288;97];[44]];
[[97;39;8288;776;97];[44]];
[[97];[39;8288];[49];[58]];
[[97];[39;8288;776];[49];[58]];
[[97];[39;8288];[49];[39]];
[[97];[39;8288;776];[49];[39]];
[[97];[39;8288];[49];[44]];
[[97];[39;8288;776];[49];[44]];
[[97];[39;8288];[49];[46;8288]];
[[97];[39;8288;776];[49];[46;8288]];
[[97];[44];[1]];
[[97];[44;776];[1]];
[[97];[44];[13]];
[[97];[44;776];[13]];
[[97];[44];[10]];
[[97];[44;776];[10]];
[[97];[44];[11]];
[[97];[44;776];[11]];
[[97];[44];[12337]];
[[97];[44;776];[12337]];
[[97];[44];[65]];
[[97];[44;776];[65]];
[[97];[44];[58]];
[[97];[44;776];[58]];
[[97];[44];[44]];
[[97];[44;776];[44]];
[[97];[44];[46]];
[[97];[44;776];[46]];
[[97];[44];[48]];
[[97];[44;776];[48]];
[[97];[44];[95]];
[[97];[44;776];[95]];
[[97];[44];[127462]];
[[97];[44;776];[127462]];
[[97];[44];[1488]];
[[97];[44;776];[1488]];
[[97];[44];[34]];
[[97];[44;776];[34]];
[[97];[44];[39]];
[[97];[44;776];[39]];
[[97];[44];[8986]];
[[97];[44;776];[8986]];
[[97];[44];[32]];
[[97];[44;776];[32]];
[[97];[44;173]];
[[97];[44;776;173]];
[[97];[44;768]];
[[97];[44;776;768]];
[[97];[44;8205]];
[[97];[44;776;8205]];
[[97];[44];[97;8288]];
[[97];[44;776];[97;8288]];
[[97];[44];[97];[58]];
[[97];[44;776];[97];[58]];
[[97];[44];[97];[39]];
[[97];[44;776];[97];[39]];
[[97];[44];[97];[39;8288]];
[[97];[44;776];[97];[39;8288]];
[[97];[44];[97];[44]];
[[97];[44;776];[97];[44]];
[[97];[44];[49];[58]];
[[97];[44;776];[49];[58]];
[[97];[44];[49];[39]];
[[97];[44;776];[49];[39]];
[[97];[44];[49];[44]];
[[97];[44;776];[49];[44]];
[[97];[44];[49];[46;8288]];
[[97];[44;776];[49];[46;8288]];
[[49];[58];[1]];
[[49];[58;776];[1]];
[[49];[58];[13]];
[[49];[58;776];[13]];
[[49];[58];[10]];
[[49];[58;776];[10]];
[[49];[58];[11]];
[[49];[58;776];[11]];
[[49];[58];[12337]];
[[49];[58;776];[12337]];
[[49];[58];[65]];
[[49];[58;776];[65]];
[[49];[58];[58]];
[[49];[58;776];[58]];
[[49];[58];[44]];
[[49];[58;776];[44]];
[[49];[58];[46]];
[[49];[58;776];[46]];
[[49];[58];[48]];
[[49];[58;776];[48]];
[[49];[58];[95]];
[[49];[58;776];[95]];
[[49];[58];[127462]];
[[49];[58;776];[127462]];
[[49];[58];[1488]];
[[49];[58;776];[1488]];
[[49];[58];[34]];
[[49];[58;776];[34]];
[[49];[58];[39]];
[[49];[58;776];[39]];
[[49];[58];[8986]];
[[49];[58;776];[8986]];
[[49];[58];[32]];
[[49];[58;776];[32]];
[[49];[58;173]];
[[49];[58;776;173]];
[[49];[58;768]];
[[49];[58;776;768]];
[[49];[58;8205]];
[[49];[58;776;8205]];
[[49];[58];[97;8288]];
[[49];[58;776];[97;8288]];
[[49];[58];[97];[58]];
[[49];[58;776];[97];[58]];
[[49];[58];[97];[39]];
[[49];[58;776];[97];[39]];
[[49];[58];[97];[39;8288]];
[[49];[58;776];[97];[39;8288]];
[[49];[58];[97];[44]];
[[49];[58;776];[97];[44]];
[[49];[58];[49];[58]];
[[49];[58;776];[49];[58]];
[[49];[58];[49];[39]];
[[49];[58;776];[49];[39]];
[[49];[58];[49];[44]];
[[49];[58;776];[49];[44]];
[[49];[58];[49];[46;8288]];
[[49];[58;776];[49];[46;8288]];
[[49];[39];[1]];
[[49];[39;776];[1]];
[[49];[39];[13]];
[[49];[39;776];[13]];
[[49];[39];[10]];
[[49];[39;776];[10]];
[[49];[39];[11]];
[[49];[39;776];[11]];
[[49];[39];[12337]];
[[49];[39;776];[12337]];
[[49];[39];[65]];
[[49];[39;776];[65]];
[[49];[39];[58]];
[[49];[39;776];[58]];
[[49];[39];[44]];
[[49];[39;776];[44]];
[[49];[39];[46]];
[[49];[39;776];[46]];
[[49;39;48]];
[[49;39;776;48]];
[[49];[39];[95]];
[[49];[39;776];[95]];
[[49];[39];[127462]];
[[49];[39;776];[127462]];
[[49];[39];[1488]];
[[49];[39;776];[1488]];
[[49];[39];[34]];
[[49];[39;776];[34]];
[[49];[39];[39]];
[[49];[39;776];[39]];
[[49];[39];[8986]];
[[49];[39;776];[8986]];
[[49];[39];[32]];
[[49];[39;776];[32]];
[[49];[39;173]];
[[49];[39;776;173]];
[[49];[39;768]];
[[49];[39;776;768]];
[[49];[39;8205]];
[[49];[39;776;8205]];
[[49];[39];[97;8288]];
[[49];[39;776];[97;8288]];
[[49];[39];[97];[58]];
[[49];[39;776];[97];[58]];
[[49];[39];[97];[39]];
[[49];[39;776];[97];[39]];
[[49];[39];[97];[39;8288]];
[[49];[39;776];[97];[39;8288]];
[[49];[39];[97];[44]];
[[49];[39;776];[97];[44]];
[[49;39;49];[58]];
[[49;39;776;49];[58]];
[[49;39;49];[39]];
[[49;39;776;49];[39]];
[[49;39;49];[44]];
[[49;39;776;49];[44]];
[[49;39;49];[46;8288]];
[[49;39;776;49];[46;8288]];
[[49];[44];[1]];
[[49];[44;776];[1]];
[[49];[44];[13]];
[[49];[44;776];[13]];
[[49];[44];[10]];
[[49];[44;776];[10]];
[[49];[44];[11]];
[[49];[44;776];[11]];
[[49];[44];[12337]];
[[49];[44;776];[12337]];
[[49];[44];[65]];
[[49];[44;776];[65]];
[[49];[44];[58]];
[[49];[44;776];[58]];
[[49];[44];[44]];
[[49];[44;776];[44]];
[[49];[44];[46]];
[[49];[44;776];[46]];
[[49;44;48]];
[[49;44;776;48]];
[[49];[44];[95]];
[[49];[44;776];[95]];
[[49];[44];[127462]];
[[49];[44;776];[127462]];
[[49];[44];[1488]];
[[49];[44;776];[1488]];
[[49];[44];[34]];
[[49];[44;776];[34]];
[[49];[44];[39]];
[[49];[44;776];[39]];
[[49];[44];[8986]];
[[49];[44;776];[8986]];
[[49];[44];[32]];
[[49];[44;776];[32]];
[[49];[44;173]];
[[49];[44;776;173]];
[[49];[44;768]];
[[49];[44;776;768]];
[[49];[44;8205]];
[[49];[44;776;8205]];
[[49];[44];[97;8288]];
[[49];[44;776];[97;8288]];
[[49];[44];[97];[58]];
[[49];[44;776];[97];[58]];
[[49];[44];[97];[39]];
[[49];[44;776];[97];[39]];
[[49];[44];[97];[39;8288]];
[[49];[44;776];[97];[39;8288]];
[[49];[44];[97];[44]];
[[49];[44;776];[97];[44]];
[[49;44;49];[58]];
[[49;44;776;49];[58]];
[[49;44;49];[39]];
[[49;44;776;49];[39]];
[[49;44;49];[44]];
[[49;44;776;49];[44]];
[[49;44;49];[46;8288]];
[[49;44;776;49];[46;8288]];
[[49];[46;8288];[1]];
[[49];[46;8288;776];[1]];
[[49];[46;8288];[13]];
[[49];[46;8288;776];[13]];
[[49];[46;8288];[10]];
[[49];[46;8288;776];[10]];
[[49];[46;8288];[11]];
[[49];[46;8288;776];[11]];
[[49];[46;8288];[12337]];
[[49];[46;8288;776];[12337]];
[[49];[46;8288];[65]];
[[49];[46;8288;776];[65]];
[[49];[46;8288];[58]];
[[49];[46;8288;776];[58]];
[[49];[46;8288];[44]];
[[49];[46;8288;776];[44]];
[[49];[46;8288];[46]];
[[49];[46;8288;776];[46]];
[[49;46;8288;48]];
[[49;46;8288;776;48]];
[[49];[46;8288];[95]];
[[49];[46;8288;776];[95]];
[[49];[46;8288];[127462]];
[[49];[46;8288;776];[127462]];
[[49];[46;8288];[1488]];
[[49];[46;8288;776];[1488]];
[[49];[46;8288];[34]];
[[49];[46;8288;776];[34]];
[[49];[46;8288];[39]];
[[49];[46;8288;776];[39]];
[[49];[46;8288];[8986]];
[[49];[46;8288;776];[8986]];
[[49];[46;8288];[32]];
[[49];[46;8288;776];[32]];
[[49];[46;8288;173]];
[[49];[46;8288;776;173]];
[[49];[46;8288;768]];
[[49];[46;8288;776;768]];
[[49];[46;8288;8205]];
[[49];[46;8288;776;8205]];
[[49];[46;8288];[97;8288]];
[[49];[46;8288;776];[97;8288]];
[[49];[46;8288];[97];[58]];
[[49];[46;8288;776];[97];[58]];
[[49];[46;8288];[97];[39]];
[[49];[46;8288;776];[97];[39]];
[[49];[46;8288];[97];[39;8288]];
[[49];[46;8288;776];[97];[39;8288]];
[[49];[46;8288];[97];[44]];
[[49];[46;8288;776];[97];[44]];
[[49;46;8288;49];[58]];
[[49;46;8288;776;49];[58]];
[[49;46;8288;49];[39]];
[[49;46;8288;776;49];[39]];
[[49;46;8288;49];[44]];
[[49;46;8288;776;49];[44]];
[[49;46;8288;49];[46;8288]];
[[49;46;8288;776;49];[46;8288]];
[[13;10];[97];[10];[776]];
[[97;776]];
[[32;8205];[1606]];
[[1606;8205];[32]];
[[65;65;65]];
[[65;58;65]];
[[65];[58];[58];[65]];
[[1488;39]];
[[1488;34;1488]];
[[65;48;48;65]];
[[48;44;48]];
[[48];[44];[44];[48]];
[[12337;12337]];
[[65;95;48;95;12337;95]];
[[65;95;95;65]];
[[127462;127463];[127464];[98]];
[[97];[127462;127463];[127464];[98]];
[[97];[127462;127463;8205];[127464];[98]];
[[97];[127462;8205;127463];[127464];[98]];
[[97];[127462;127463];[127464;127465];[98]];
[[128118;127999];[128118]];
[[128721;8205;128721]];
[[97;8205;128721]];
[[9985;8205;9985]];
[[97;8205;9985]];
[[128118;127999;776;8205;128118;127999]];
[[128721;127999]];
[[8205;128721;127999]];
[[8205;128721]];
[[8205;128721]];
[[128721];[128721]];
[[97;776;8205;776;98]];
[[97];[32;32];[98]];
[[49];[58];[58];[49]];
[[49;95;49];[58];[58];[49]];
[[49;95;97];[58];[58];[49]];
[[49];[58];[58];[97]];
[[49;95;49];[58];[58];[97]];
[[49;95;97];[58];[58];[97]];
[[49];[58];[46];[49]];
[[49;95;49];[58];[46];[49]];
[[49;95;97];[58];[46];[49]];
[[49];[58];[46];[97]];
[[49;95;49];[58];[46];[97]];
[[49;95;97];[58];[46];[97]];
[[49];[58];[44];[49]];
[[49;95;49];[58];[44];[49]];
[[49;95;97];[58];[44];[49]];
[[49];[58];[44];[97]];
[[49;95;49];[58];[44];[97]];
[[49;95;97];[58];[44];[97]];
[[49];[46];[58];[49]];
[[49;95;49];[46];[58];[49]];
[[49;95;97];[46];[58];[49]];
[[49];[46];[58];[97]];
[[49;95;49];[46];[58];[97]];
[[49;95;97];[46];[58];[97]];
[[49];[46];[46];[49]];
[[49;95;49];[46];[46];[49]];
[[49;95;97];[46];[46];[49]];
[[49];[46];[46];[97]];
[[49;95;49];[46];[46];[97]];
[[49;95;97];[46];[46];[97]];
[[49];[46];[44];[49]];
[[49;95;49];[46];[44];[49]];
[[49;95;97];[46];[44];[49]];
[[49];[46];[44];[97]];
[[49;95;49];[46];[44];[97]];
[[49;95;97];[46];[44];[97]];
[[49];[44];[58];[49]];
[[49;95;49];[44];[58];[49]];
[[49;95;97];[44];[58];[49]];
[[49];[44];[58];[97]];
[[49;95;49];[44];[58];[97]];
[[49;95;97];[44];[58];[97]];
[[49];[44];[46];[49]];
[[49;95;49];[44];[46];[49]];
[[49;95;97];[44];[46];[49]];
[[49];[44];[46];[97]];
[[49;95;49];[44];[46];[97]];
[[49;95;97];[44];[46];[97]];
[[49];[44];[44];[49]];
[[49;95;49];[44];[44];[49]];
[[49;95;97];[44];[44];[49]];
[[49];[44];[44];[97]];
[[49;95;49];[44];[44];[97]];
[[49;95;97];[44];[44];[97]];
[[97];[58];[58];[49]];
[[97;95;49];[58];[58];[49]];
[[97;95;97];[58];[58];[49]];
[[97];[58];[58];[97]];
[[97;95;49];[58];[58];[97]];
[[97;95;97];[58];[58];[97]];
[[97];[58];[46];[49]];
[[97;95;49];[58];[46];[49]];
[[97;95;97];[58];[46];[49]];
[[97];[58];[46];[97]];
[[97;95;49];[58];[46];[97]];
[[97;95;97];[58];[46];[97]];
[[97];[58];[44];[49]];
[[97;95;49];[58];[44];[49]];
[[97;95;97];[58];[44];[49]];
[[97];[58];[44];[97]];
[[97;95;49];[58];[44];[97]];
[[97;95;97];[58];[44];[97]];
[[97];[46];[58];[49]];
[[97;95;49];[46];[58];[49]];
[[97;95;97];[46];[58];[49]];
[[97];[46];[58];[97]];
[[97;95;49];[46];[58];[97]];
[[97;95;97];[46];[58];[97]];
[[97];[46];[46];[49]];
[[97;95;49];[46];[46];[49]];
[[97;95;97];[46];[46];[49]];
[[97];[46];[46];[97]];
[[97;95;49];[46];[46];[97]];
[[97;95;97];[46];[46];[97]];
[[97];[46];[44];[49]];
[[97;95;49];[46];[44];[49]];
[[97;95;97];[46];[44];[49]];
[[97];[46];[44];[97]];
[[97;95;49];[46];[44];[97]];
[[97;95;97];[46];[44];[97]];
[[97];[44];[58];[49]];
[[97;95;49];[44];[58];[49]];
[[97;95;97];[44];[58];[49]];
[[97];[44];[58];[97]];
[[97;95;49];[44];[58];[97]];
[[97;95;97];[44];[58];[97]];
[[97];[44];[46];[49]];
[[97;95;49];[44];[46];[49]];
[[97;95;97];[44];[46];[49]];
[[97];[44];[46];[97]];
[[97;95;49];[44];[46];[97]];
[[97;95;97];[44];[46];[97]];
[[97];[44];[44];[49]];
[[97;95;49];[44];[44];[49]];
[[97;95;97];[44];[44];[49]];
[[97];[44];[44];[97]];
[[97;95;49];[44];[44];[97]];
[[97;95;97];[44];[44];[97]]].

Example test_count : zlen tests = 1823.
Proof. vm_compute. reflexivity. Qed.
(* Rules and breaker pass all tests. *)
Example standard_passes : filter (failing standard) tests = [].
Proof. vm_cast_no_check (eq_refl (A := list (list (list Z))) []). Qed.
Example model_passes : filter (failing model) tests = [].
Proof. vm_cast_no_check (eq_refl (A := list (list (list Z))) []). Qed.
