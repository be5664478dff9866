(* LineTests.v -- uax14/LineBreakTest.txt of the repository, replayed on the model and on the rules of
   LineSpec.v.  Every test is the list of its segments, as classes (numbered as in Line.v) of its
   characters.  This validates model and specification; no theorem depends on it. *)
From Coq Require Import List ZArith Bool.
From Verif Require Import Base RuneWrite Segmenter BreakSpec Line LineSpec LineCor LineAgree.
Import ListNotations.
Open Scope Z_scope.

(* the rune c + 1 has class c *)
Definition ttab (c r : Z) : bool := r =? c + 1.
Definition tcomb (r : Z) : bool := false.
Definition model (text : list Z) : list (list Z) :=
  match (let* s := InitFromSlice deque_ops text (NewSegmenter [Some NewLineWrap]) in loop deque_ops (lb_step ttab tcomb) (length text + 2) s) with
  | Ok (outs, true, _) => map fst outs
  | _ => []
  end.
Definition rules_of (brk : list Z -> list Z -> bool) (text : list Z) : list (list Z) := segmentation (line_break brk (lcls ttab tcomb)) text.
Fixpoint same (a b : list Z) : bool := match a, b with [], [] => true | x :: a, y :: b => (x =? y) && same a b | _, _ => false end.
Fixpoint sames (a b : list (list Z)) : bool := match a, b with [], [] => true | x :: a, y :: b => same x y && sames a b | _, _ => false end.
Definition failing (f : list Z -> list (list Z)) (t : list (list Z)) : bool :=
  let t1 := map (map (Z.add 1)) t in negb (sames (f (concat t1)) t1).

Definition tests : list (list (list Z)) := [
[[1;1]];
[[1;37];[1]];
[[1;9;1]];
[[1;9;37];[1]];
[[1];[2]];
[[1;37];[2]];
[[1;9];[2]];
[[1;9;37];[2]];
[[1;3]];
[[1;37];[3]];
[[1;9;3]];
[[1;9;37];[3]];
[[1];[4]];
[[1;37];[4]];
[[1;9];[4]];
[[1;9;37];[4]];
[[1;5]];
[[1;37;5]];
[[1;9;5]];
[[1;9;37;5]];
[[1];[6]];
[[1;37];[6]];
[[1;9];[6]];
[[1;9;37];[6]];
[[1;8]];
[[1;37;8]];
[[1;9;8]];
[[1;9;37;8]];
[[1;10]];
[[1;37;10]];
[[1;9;10]];
[[1;9;37;10]];
[[1;11]];
[[1;37;11]];
[[1;9;11]];
[[1;9;37;11]];
[[1;14]];
[[1;37;14]];
[[1;9;14]];
[[1;9;37;14]];
[[1;15]];
[[1;37];[15]];
[[1;9;15]];
[[1;9;37];[15]];
[[1];[16]];
[[1;37];[16]];
[[1;9];[16]];
[[1;9;37];[16]];
[[1];[17]];
[[1;37];[17]];
[[1;9];[17]];
[[1;9;37];[17]];
[[1;18]];
[[1;37];[18]];
[[1;9;18]];
[[1;9;37];[18]];
[[1;19]];
[[1;37];[19]];
[[1;9;19]];
[[1;9;37];[19]];
[[1];[20]];
[[1;37];[20]];
[[1;9];[20]];
[[1;9;37];[20]];
[[1;21]];
[[1;37];[21]];
[[1;9;21]];
[[1;9;37];[21]];
[[1;22]];
[[1;37;22]];
[[1;9;22]];
[[1;9;37;22]];
[[1];[23]];
[[1;37];[23]];
[[1;9];[23]];
[[1;9;37];[23]];
[[1];[24]];
[[1;37];[24]];
[[1;9];[24]];
[[1;9;37];[24]];
[[1];[25]];
[[1;37];[25]];
[[1;9];[25]];
[[1;9;37];[25]];
[[1;26]];
[[1;37;26]];
[[1;9;26]];
[[1;9;37;26]];
[[1;27]];
[[1;37;27]];
[[1;9;27]];
[[1;9;37;27]];
[[1;28]];
[[1;37];[28]];
[[1;9;28]];
[[1;9;37];[28]];
[[1;29]];
[[1;37];[29]];
[[1;9;29]];
[[1;9;37];[29]];
[[1;30]];
[[1;37];[30]];
[[1;9;30]];
[[1;9;37];[30]];
[[1;31]];
[[1;37];[31]];
[[1;9;31]];
[[1;9;37];[31]];
[[1;32]];
[[1;37];[32]];
[[1;9;32]];
[[1;9;37];[32]];
[[1;33]];
[[1;37];[33]];
[[1;9;33]];
[[1;9;37];[33]];
[[1;37]];
[[1;37;37]];
[[1;9;37]];
[[1;9;37;37]];
[[1;38]];
[[1;37;38]];
[[1;9;38]];
[[1;9;37;38]];
[[1;39]];
[[1;37;39]];
[[1;9;39]];
[[1;9;37;39]];
[[1;41]];
[[1;37;41]];
[[1;9;41]];
[[1;9;37;41]];
[[1];[34]];
[[1;37];[34]];
[[1;9];[34]];
[[1;9;37];[34]];
[[1];[12]];
[[1;37];[12]];
[[1;9];[12]];
[[1;9;37];[12]];
[[1];[13]];
[[1;37];[13]];
[[1;9];[13]];
[[1;9;37];[13]];
[[1;9]];
[[1;37];[9]];
[[1;9;9]];
[[1;9;37];[9]];
[[1;42]];
[[1;37];[42]];
[[1;9;42]];
[[1;9;37];[42]];
[[1;0]];
[[1;37];[0]];
[[1;9;0]];
[[1;9;37];[0]];
[[1;40]];
[[1;37];[40]];
[[1;9;40]];
[[1;9;37];[40]];
[[1;35]];
[[1;37];[35]];
[[1;9;35]];
[[1;9;37];[35]];
[[1;7]];
[[1;37];[7]];
[[1;9;7]];
[[1;9;37];[7]];
[[2];[1]];
[[2;37];[1]];
[[2;9];[1]];
[[2;9;37];[1]];
[[2;2]];
[[2;37;2]];
[[2;9;2]];
[[2;9;37;2]];
[[2;3]];
[[2;37];[3]];
[[2;9;3]];
[[2;9;37];[3]];
[[2];[4]];
[[2;37];[4]];
[[2;9];[4]];
[[2;9;37];[4]];
[[2;5]];
[[2;37;5]];
[[2;9;5]];
[[2;9;37;5]];
[[2];[6]];
[[2;37];[6]];
[[2;9];[6]];
[[2;9;37];[6]];
[[2;8]];
[[2;37;8]];
[[2;9;8]];
[[2;9;37;8]];
[[2;10]];
[[2;37;10]];
[[2;9;10]];
[[2;9;37;10]];
[[2;11]];
[[2;37;11]];
[[2;9;11]];
[[2;9;37;11]];
[[2;14]];
[[2;37;14]];
[[2;9;14]];
[[2;9;37;14]];
[[2;15]];
[[2;37];[15]];
[[2;9;15]];
[[2;9;37];[15]];
[[2];[16]];
[[2;37];[16]];
[[2;9];[16]];
[[2;9;37];[16]];
[[2];[17]];
[[2;37];[17]];
[[2;9];[17]];
[[2;9;37];[17]];
[[2];[18]];
[[2;37];[18]];
[[2;9];[18]];
[[2;9;37];[18]];
[[2;19]];
[[2;37];[19]];
[[2;9;19]];
[[2;9;37];[19]];
[[2];[20]];
[[2;37];[20]];
[[2;9];[20]];
[[2;9;37];[20]];
[[2];[21]];
[[2;37];[21]];
[[2;9];[21]];
[[2;9;37];[21]];
[[2;22]];
[[2;37;22]];
[[2;9;22]];
[[2;9;37;22]];
[[2];[23]];
[[2;37];[23]];
[[2;9];[23]];
[[2;9;37];[23]];
[[2];[24]];
[[2;37];[24]];
[[2;9];[24]];
[[2;9;37];[24]];
[[2];[25]];
[[2;37];[25]];
[[2;9];[25]];
[[2;9;37];[25]];
[[2;26]];
[[2;37;26]];
[[2;9;26]];
[[2;9;37;26]];
[[2;27]];
[[2;37;27]];
[[2;9;27]];
[[2;9;37;27]];
[[2;28]];
[[2;37];[28]];
[[2;9;28]];
[[2;9;37];[28]];
[[2];[29]];
[[2;37];[29]];
[[2;9];[29]];
[[2;9;37];[29]];
[[2];[30]];
[[2;37];[30]];
[[2;9];[30]];
[[2;9;37];[30]];
[[2];[31]];
[[2;37];[31]];
[[2;9];[31]];
[[2;9;37];[31]];
[[2];[32]];
[[2;37];[32]];
[[2;9];[32]];
[[2;9;37];[32]];
[[2;33]];
[[2;37];[33]];
[[2;9;33]];
[[2;9;37];[33]];
[[2;37]];
[[2;37;37]];
[[2;9;37]];
[[2;9;37;37]];
[[2;38]];
[[2;37;38]];
[[2;9;38]];
[[2;9;37;38]];
[[2;39]];
[[2;37;39]];
[[2;9;39]];
[[2;9;37;39]];
[[2;41]];
[[2;37;41]];
[[2;9;41]];
[[2;9;37;41]];
[[2];[34]];
[[2;37];[34]];
[[2;9];[34]];
[[2;9;37];[34]];
[[2];[12]];
[[2;37];[12]];
[[2;9];[12]];
[[2;9;37];[12]];
[[2];[13]];
[[2;37];[13]];
[[2;9];[13]];
[[2;9;37];[13]];
[[2;9]];
[[2;37];[9]];
[[2;9;9]];
[[2;9;37];[9]];
[[2;42]];
[[2;37];[42]];
[[2;9;42]];
[[2;9;37];[42]];
[[2];[0]];
[[2;37];[0]];
[[2;9];[0]];
[[2;9;37];[0]];
[[2];[40]];
[[2;37];[40]];
[[2;9];[40]];
[[2;9;37];[40]];
[[2];[35]];
[[2;37];[35]];
[[2;9];[35]];
[[2;9;37];[35]];
[[2;7]];
[[2;37];[7]];
[[2;9;7]];
[[2;9;37];[7]];
[[3];[1]];
[[3;37];[1]];
[[3;9];[1]];
[[3;9;37];[1]];
[[3];[2]];
[[3;37];[2]];
[[3;9];[2]];
[[3;9;37];[2]];
[[3;3]];
[[3;37];[3]];
[[3;9;3]];
[[3;9;37];[3]];
[[3];[4]];
[[3;37];[4]];
[[3;9];[4]];
[[3;9;37];[4]];
[[3;5]];
[[3;37;5]];
[[3;9;5]];
[[3;9;37;5]];
[[3];[6]];
[[3;37];[6]];
[[3;9];[6]];
[[3;9;37];[6]];
[[3;8]];
[[3;37;8]];
[[3;9;8]];
[[3;9;37;8]];
[[3;10]];
[[3;37;10]];
[[3;9;10]];
[[3;9;37;10]];
[[3;11]];
[[3;37;11]];
[[3;9;11]];
[[3;9;37;11]];
[[3;14]];
[[3;37;14]];
[[3;9;14]];
[[3;9;37;14]];
[[3];[15]];
[[3;37];[15]];
[[3;9];[15]];
[[3;9;37];[15]];
[[3];[16]];
[[3;37];[16]];
[[3;9];[16]];
[[3;9;37];[16]];
[[3];[17]];
[[3;37];[17]];
[[3;9];[17]];
[[3;9;37];[17]];
[[3];[18]];
[[3;37];[18]];
[[3;9];[18]];
[[3;9;37];[18]];
[[3;19]];
[[3;37];[19]];
[[3;9;19]];
[[3;9;37];[19]];
[[3];[20]];
[[3;37];[20]];
[[3;9];[20]];
[[3;9;37];[20]];
[[3];[21]];
[[3;37];[21]];
[[3;9];[21]];
[[3;9;37];[21]];
[[3;22]];
[[3;37;22]];
[[3;9;22]];
[[3;9;37;22]];
[[3];[23]];
[[3;37];[23]];
[[3;9];[23]];
[[3;9;37];[23]];
[[3];[24]];
[[3;37];[24]];
[[3;9];[24]];
[[3;9;37];[24]];
[[3];[25]];
[[3;37];[25]];
[[3;9];[25]];
[[3;9;37];[25]];
[[3;26]];
[[3;37;26]];
[[3;9;26]];
[[3;9;37;26]];
[[3;27]];
[[3;37;27]];
[[3;9;27]];
[[3;9;37;27]];
[[3;28]];
[[3;37];[28]];
[[3;9;28]];
[[3;9;37];[28]];
[[3];[29]];
[[3;37];[29]];
[[3;9];[29]];
[[3;9;37];[29]];
[[3];[30]];
[[3;37];[30]];
[[3;9];[30]];
[[3;9;37];[30]];
[[3];[31]];
[[3;37];[31]];
[[3;9];[31]];
[[3;9;37];[31]];
[[3];[32]];
[[3;37];[32]];
[[3;9];[32]];
[[3;9;37];[32]];
[[3;33]];
[[3;37];[33]];
[[3;9;33]];
[[3;9;37];[33]];
[[3;37]];
[[3;37;37]];
[[3;9;37]];
[[3;9;37;37]];
[[3;38]];
[[3;37;38]];
[[3;9;38]];
[[3;9;37;38]];
[[3;39]];
[[3;37;39]];
[[3;9;39]];
[[3;9;37;39]];
[[3;41]];
[[3;37;41]];
[[3;9;41]];
[[3;9;37;41]];
[[3];[34]];
[[3;37];[34]];
[[3;9];[34]];
[[3;9;37];[34]];
[[3];[12]];
[[3;37];[12]];
[[3;9];[12]];
[[3;9;37];[12]];
[[3];[13]];
[[3;37];[13]];
[[3;9];[13]];
[[3;9;37];[13]];
[[3;9]];
[[3;37];[9]];
[[3;9;9]];
[[3;9;37];[9]];
[[3;42]];
[[3;37];[42]];
[[3;9;42]];
[[3;9;37];[42]];
[[3];[0]];
[[3;37];[0]];
[[3;9];[0]];
[[3;9;37];[0]];
[[3];[40]];
[[3;37];[40]];
[[3;9];[40]];
[[3;9;37];[40]];
[[3];[35]];
[[3;37];[35]];
[[3;9];[35]];
[[3;9;37];[35]];
[[3;7]];
[[3;37];[7]];
[[3;9;7]];
[[3;9;37];[7]];
[[4;1]];
[[4;37];[1]];
[[4;9;1]];
[[4;9;37];[1]];
[[4;2]];
[[4;37];[2]];
[[4;9;2]];
[[4;9;37];[2]];
[[4;3]];
[[4;37];[3]];
[[4;9;3]];
[[4;9;37];[3]];
[[4;4]];
[[4;37];[4]];
[[4;9;4]];
[[4;9;37];[4]];
[[4;5]];
[[4;37;5]];
[[4;9;5]];
[[4;9;37;5]];
[[4];[6]];
[[4;37];[6]];
[[4;9];[6]];
[[4;9;37];[6]];
[[4;8]];
[[4;37;8]];
[[4;9;8]];
[[4;9;37;8]];
[[4;10]];
[[4;37;10]];
[[4;9;10]];
[[4;9;37;10]];
[[4;11]];
[[4;37;11]];
[[4;9;11]];
[[4;9;37;11]];
[[4;14]];
[[4;37;14]];
[[4;9;14]];
[[4;9;37;14]];
[[4;15]];
[[4;37];[15]];
[[4;9;15]];
[[4;9;37];[15]];
[[4;16]];
[[4;37];[16]];
[[4;9;16]];
[[4;9;37];[16]];
[[4;17]];
[[4;37];[17]];
[[4;9;17]];
[[4;9;37];[17]];
[[4;18]];
[[4;37];[18]];
[[4;9;18]];
[[4;9;37];[18]];
[[4;19]];
[[4;37];[19]];
[[4;9;19]];
[[4;9;37];[19]];
[[4;20]];
[[4;37];[20]];
[[4;9;20]];
[[4;9;37];[20]];
[[4;21]];
[[4;37];[21]];
[[4;9;21]];
[[4;9;37];[21]];
[[4;22]];
[[4;37;22]];
[[4;9;22]];
[[4;9;37;22]];
[[4;23]];
[[4;37];[23]];
[[4;9;23]];
[[4;9;37];[23]];
[[4;24]];
[[4;37];[24]];
[[4;9;24]];
[[4;9;37];[24]];
[[4;25]];
[[4;37];[25]];
[[4;9;25]];
[[4;9;37];[25]];
[[4;26]];
[[4;37;26]];
[[4;9;26]];
[[4;9;37;26]];
[[4;27]];
[[4;37;27]];
[[4;9;27]];
[[4;9;37;27]];
[[4;28]];
[[4;37];[28]];
[[4;9;28]];
[[4;9;37];[28]];
[[4;29]];
[[4;37];[29]];
[[4;9;29]];
[[4;9;37];[29]];
[[4;30]];
[[4;37];[30]];
[[4;9;30]];
[[4;9;37];[30]];
[[4;31]];
[[4;37];[31]];
[[4;9;31]];
[[4;9;37];[31]];
[[4;32]];
[[4;37];[32]];
[[4;9;32]];
[[4;9;37];[32]];
[[4;33]];
[[4;37];[33]];
[[4;9;33]];
[[4;9;37];[33]];
[[4;37]];
[[4;37;37]];
[[4;9;37]];
[[4;9;37;37]];
[[4;38]];
[[4;37;38]];
[[4;9;38]];
[[4;9;37;38]];
[[4;39]];
[[4;37;39]];
[[4;9;39]];
[[4;9;37;39]];
[[4;41]];
[[4;37;41]];
[[4;9;41]];
[[4;9;37;41]];
[[4;34]];
[[4;37];[34]];
[[4;9;34]];
[[4;9;37];[34]];
[[4;12]];
[[4;37];[12]];
[[4;9;12]];
[[4;9;37];[12]];
[[4;13]];
[[4;37];[13]];
[[4;9;13]];
[[4;9;37];[13]];
[[4;9]];
[[4;37];[9]];
[[4;9;9]];
[[4;9;37];[9]];
[[4;42]];
[[4;37];[42]];
[[4;9;42]];
[[4;9;37];[42]];
[[4;0]];
[[4;37];[0]];
[[4;9;0]];
[[4;9;37];[0]];
[[4;40]];
[[4;37];[40]];
[[4;9;40]];
[[4;9;37];[40]];
[[4;35]];
[[4;37];[35]];
[[4;9;35]];
[[4;9;37];[35]];
[[4;7]];
[[4;37];[7]];
[[4;9;7]];
[[4;9;37];[7]];
[[5];[1]];
[[5];[37];[1]];
[[5];[9;1]];
[[5];[9;37];[1]];
[[5];[2]];
[[5];[37];[2]];
[[5];[9];[2]];
[[5];[9;37];[2]];
[[5];[3]];
[[5];[37];[3]];
[[5];[9;3]];
[[5];[9;37];[3]];
[[5];[4]];
[[5];[37];[4]];
[[5];[9];[4]];
[[5];[9;37];[4]];
[[5];[5]];
[[5];[37;5]];
[[5];[9;5]];
[[5];[9;37;5]];
[[5];[6]];
[[5];[37];[6]];
[[5];[9];[6]];
[[5];[9;37];[6]];
[[5];[8]];
[[5];[37;8]];
[[5];[9;8]];
[[5];[9;37;8]];
[[5];[10]];
[[5];[37;10]];
[[5];[9;10]];
[[5];[9;37;10]];
[[5];[11]];
[[5];[37;11]];
[[5];[9;11]];
[[5];[9;37;11]];
[[5];[14]];
[[5];[37;14]];
[[5];[9;14]];
[[5];[9;37;14]];
[[5];[15]];
[[5];[37];[15]];
[[5];[9;15]];
[[5];[9;37];[15]];
[[5];[16]];
[[5];[37];[16]];
[[5];[9];[16]];
[[5];[9;37];[16]];
[[5];[17]];
[[5];[37];[17]];
[[5];[9];[17]];
[[5];[9;37];[17]];
[[5];[18]];
[[5];[37];[18]];
[[5];[9;18]];
[[5];[9;37];[18]];
[[5];[19]];
[[5];[37];[19]];
[[5];[9;19]];
[[5];[9;37];[19]];
[[5];[20]];
[[5];[37];[20]];
[[5];[9];[20]];
[[5];[9;37];[20]];
[[5];[21]];
[[5];[37];[21]];
[[5];[9;21]];
[[5];[9;37];[21]];
[[5];[22]];
[[5];[37;22]];
[[5];[9;22]];
[[5];[9;37;22]];
[[5];[23]];
[[5];[37];[23]];
[[5];[9];[23]];
[[5];[9;37];[23]];
[[5];[24]];
[[5];[37];[24]];
[[5];[9];[24]];
[[5];[9;37];[24]];
[[5];[25]];
[[5];[37];[25]];
[[5];[9];[25]];
[[5];[9;37];[25]];
[[5];[26]];
[[5];[37;26]];
[[5];[9;26]];
[[5];[9;37;26]];
[[5];[27]];
[[5];[37;27]];
[[5];[9;27]];
[[5];[9;37;27]];
[[5];[28]];
[[5];[37];[28]];
[[5];[9;28]];
[[5];[9;37];[28]];
[[5];[29]];
[[5];[37];[29]];
[[5];[9;29]];
[[5];[9;37];[29]];
[[5];[30]];
[[5];[37];[30]];
[[5];[9;30]];
[[5];[9;37];[30]];
[[5];[31]];
[[5];[37];[31]];
[[5];[9;31]];
[[5];[9;37];[31]];
[[5];[32]];
[[5];[37];[32]];
[[5];[9;32]];
[[5];[9;37];[32]];
[[5];[33]];
[[5];[37];[33]];
[[5];[9;33]];
[[5];[9;37];[33]];
[[5];[37]];
[[5];[37;37]];
[[5];[9;37]];
[[5];[9;37;37]];
[[5];[38]];
[[5];[37;38]];
[[5];[9;38]];
[[5];[9;37;38]];
[[5];[39]];
[[5];[37;39]];
[[5];[9;39]];
[[5];[9;37;39]];
[[5];[41]];
[[5];[37;41]];
[[5];[9;41]];
[[5];[9;37;41]];
[[5];[34]];
[[5];[37];[34]];
[[5];[9];[34]];
[[5];[9;37];[34]];
[[5];[12]];
[[5];[37];[12]];
[[5];[9];[12]];
[[5];[9;37];[12]];
[[5];[13]];
[[5];[37];[13]];
[[5];[9];[13]];
[[5];[9;37];[13]];
[[5];[9]];
[[5];[37];[9]];
[[5];[9;9]];
[[5];[9;37];[9]];
[[5];[42]];
[[5];[37];[42]];
[[5];[9;42]];
[[5];[9;37];[42]];
[[5];[0]];
[[5];[37];[0]];
[[5];[9;0]];
[[5];[9;37];[0]];
[[5];[40]];
[[5];[37];[40]];
[[5];[9;40]];
[[5];[9;37];[40]];
[[5];[35]];
[[5];[37];[35]];
[[5];[9;35]];
[[5];[9;37];[35]];
[[5];[7]];
[[5];[37];[7]];
[[5];[9;7]];
[[5];[9;37];[7]];
[[6];[1]];
[[6;37];[1]];
[[6;9];[1]];
[[6;9;37];[1]];
[[6];[2]];
[[6;37];[2]];
[[6;9];[2]];
[[6;9;37];[2]];
[[6];[3]];
[[6;37];[3]];
[[6;9];[3]];
[[6;9;37];[3]];
[[6];[4]];
[[6;37];[4]];
[[6;9];[4]];
[[6;9;37];[4]];
[[6;5]];
[[6;37;5]];
[[6;9;5]];
[[6;9;37;5]];
[[6];[6]];
[[6;37];[6]];
[[6;9];[6]];
[[6;9;37];[6]];
[[6;8]];
[[6;37;8]];
[[6;9;8]];
[[6;9;37;8]];
[[6;10]];
[[6;37;10]];
[[6;9;10]];
[[6;9;37;10]];
[[6;11]];
[[6;37;11]];
[[6;9;11]];
[[6;9;37;11]];
[[6;14]];
[[6;37;14]];
[[6;9;14]];
[[6;9;37;14]];
[[6;15]];
[[6;37];[15]];
[[6;9;15]];
[[6;9;37];[15]];
[[6];[16]];
[[6;37];[16]];
[[6;9];[16]];
[[6;9;37];[16]];
[[6];[17]];
[[6;37];[17]];
[[6;9];[17]];
[[6;9;37];[17]];
[[6];[18]];
[[6;37];[18]];
[[6;9];[18]];
[[6;9;37];[18]];
[[6];[19]];
[[6;37];[19]];
[[6;9];[19]];
[[6;9;37];[19]];
[[6];[20]];
[[6;37];[20]];
[[6;9];[20]];
[[6;9;37];[20]];
[[6];[21]];
[[6;37];[21]];
[[6;9];[21]];
[[6;9;37];[21]];
[[6;22]];
[[6;37;22]];
[[6;9;22]];
[[6;9;37;22]];
[[6];[23]];
[[6;37];[23]];
[[6;9];[23]];
[[6;9;37];[23]];
[[6];[24]];
[[6;37];[24]];
[[6;9];[24]];
[[6;9;37];[24]];
[[6];[25]];
[[6;37];[25]];
[[6;9];[25]];
[[6;9;37];[25]];
[[6;26]];
[[6;37;26]];
[[6;9;26]];
[[6;9;37;26]];
[[6;27]];
[[6;37;27]];
[[6;9;27]];
[[6;9;37;27]];
[[6];[28]];
[[6;37];[28]];
[[6;9];[28]];
[[6;9;37];[28]];
[[6];[29]];
[[6;37];[29]];
[[6;9];[29]];
[[6;9;37];[29]];
[[6];[30]];
[[6;37];[30]];
[[6;9];[30]];
[[6;9;37];[30]];
[[6];[31]];
[[6;37];[31]];
[[6;9];[31]];
[[6;9;37];[31]];
[[6];[32]];
[[6;37];[32]];
[[6;9];[32]];
[[6;9;37];[32]];
[[6;33]];
[[6;37];[33]];
[[6;9;33]];
[[6;9;37];[33]];
[[6;37]];
[[6;37;37]];
[[6;9;37]];
[[6;9;37;37]];
[[6;38]];
[[6;37;38]];
[[6;9;38]];
[[6;9;37;38]];
[[6;39]];
[[6;37;39]];
[[6;9;39]];
[[6;9;37;39]];
[[6;41]];
[[6;37;41]];
[[6;9;41]];
[[6;9;37;41]];
[[6];[34]];
[[6;37];[34]];
[[6;9];[34]];
[[6;9;37];[34]];
[[6];[12]];
[[6;37];[12]];
[[6;9];[12]];
[[6;9;37];[12]];
[[6];[13]];
[[6;37];[13]];
[[6;9];[13]];
[[6;9;37];[13]];
[[6;9]];
[[6;37];[9]];
[[6;9;9]];
[[6;9;37];[9]];
[[6;42]];
[[6;37];[42]];
[[6;9;42]];
[[6;9;37];[42]];
[[6];[0]];
[[6;37];[0]];
[[6;9];[0]];
[[6;9;37];[0]];
[[6];[40]];
[[6;37];[40]];
[[6;9];[40]];
[[6;9;37];[40]];
[[6];[35]];
[[6;37];[35]];
[[6;9];[35]];
[[6;9;37];[35]];
[[6];[7]];
[[6;37];[7]];
[[6;9];[7]];
[[6;9;37];[7]];
[[8];[1]];
[[8;37];[1]];
[[8;9];[1]];
[[8;9;37];[1]];
[[8];[2]];
[[8;37];[2]];
[[8;9];[2]];
[[8;9;37];[2]];
[[8;3]];
[[8;37];[3]];
[[8;9;3]];
[[8;9;37];[3]];
[[8];[4]];
[[8;37];[4]];
[[8;9];[4]];
[[8;9;37];[4]];
[[8;5]];
[[8;37;5]];
[[8;9;5]];
[[8;9;37;5]];
[[8];[6]];
[[8;37];[6]];
[[8;9];[6]];
[[8;9;37];[6]];
[[8;8]];
[[8;37;8]];
[[8;9;8]];
[[8;9;37;8]];
[[8;10]];
[[8;37;10]];
[[8;9;10]];
[[8;9;37;10]];
[[8;11]];
[[8;37;11]];
[[8;9;11]];
[[8;9;37;11]];
[[8;14]];
[[8;37;14]];
[[8;9;14]];
[[8;9;37;14]];
[[8;15]];
[[8;37];[15]];
[[8;9;15]];
[[8;9;37];[15]];
[[8];[16]];
[[8;37];[16]];
[[8;9];[16]];
[[8;9;37];[16]];
[[8];[17]];
[[8;37];[17]];
[[8;9];[17]];
[[8;9;37];[17]];
[[8];[18]];
[[8;37];[18]];
[[8;9];[18]];
[[8;9;37];[18]];
[[8;19]];
[[8;37];[19]];
[[8;9;19]];
[[8;9;37];[19]];
[[8];[20]];
[[8;37];[20]];
[[8;9];[20]];
[[8;9;37];[20]];
[[8];[21]];
[[8;37];[21]];
[[8;9];[21]];
[[8;9;37];[21]];
[[8;22]];
[[8;37;22]];
[[8;9;22]];
[[8;9;37;22]];
[[8];[23]];
[[8;37];[23]];
[[8;9];[23]];
[[8;9;37];[23]];
[[8];[24]];
[[8;37];[24]];
[[8;9];[24]];
[[8;9;37];[24]];
[[8];[25]];
[[8;37];[25]];
[[8;9];[25]];
[[8;9;37];[25]];
[[8;26]];
[[8;37;26]];
[[8;9;26]];
[[8;9;37;26]];
[[8;27]];
[[8;37;27]];
[[8;9;27]];
[[8;9;37;27]];
[[8;28]];
[[8;37;28]];
[[8;9;28]];
[[8;9;37;28]];
[[8];[29]];
[[8;37];[29]];
[[8;9];[29]];
[[8;9;37];[29]];
[[8];[30]];
[[8;37];[30]];
[[8;9];[30]];
[[8;9;37];[30]];
[[8;37];[31]];
[[8;9;37];[31]];
[[8];[32]];
[[8;37];[32]];
[[8;9];[32]];
[[8;9;37];[32]];
[[8;33]];
[[8;37];[33]];
[[8;9;33]];
[[8;9;37];[33]];
[[8;37]];
[[8;37;37]];
[[8;9;37]];
[[8;9;37;37]];
[[8;38]];
[[8;37;38]];
[[8;9;38]];
[[8;9;37;38]];
[[8;39]];
[[8;37;39]];
[[8;9;39]];
[[8;9;37;39]];
[[8;41]];
[[8;37;41]];
[[8;9;41]];
[[8;9;37;41]];
[[8];[34]];
[[8;37];[34]];
[[8;9];[34]];
[[8;9;37];[34]];
[[8];[12]];
[[8;37];[12]];
[[8;9];[12]];
[[8;9;37];[12]];
[[8];[13]];
[[8;37];[13]];
[[8;9];[13]];
[[8;9;37];[13]];
[[8;9]];
[[8;37];[9]];
[[8;9;9]];
[[8;9;37];[9]];
[[8;42]];
[[8;37];[42]];
[[8;9;42]];
[[8;9;37];[42]];
[[8];[0]];
[[8;37];[0]];
[[8;9];[0]];
[[8;9;37];[0]];
[[8];[40]];
[[8;37];[40]];
[[8;9];[40]];
[[8;9;37];[40]];
[[8];[35]];
[[8;37];[35]];
[[8;9];[35]];
[[8;9;37];[35]];
[[8;7]];
[[8;37;7]];
[[8;9;7]];
[[8;9;37;7]];
[[10;1]];
[[10;37];[1]];
[[10;9;1]];
[[10;9;37];[1]];
[[10];[2]];
[[10;37];[2]];
[[10;9];[2]];
[[10;9;37];[2]];
[[10;3]];
[[10;37];[3]];
[[10;9;3]];
[[10;9;37];[3]];
[[10];[4]];
[[10;37];[4]];
[[10;9];[4]];
[[10;9;37];[4]];
[[10;5]];
[[10;37;5]];
[[10;9;5]];
[[10;9;37;5]];
[[10];[6]];
[[10;37];[6]];
[[10;9];[6]];
[[10;9;37];[6]];
[[10;8]];
[[10;37;8]];
[[10;9;8]];
[[10;9;37;8]];
[[10;10]];
[[10;37;10]];
[[10;9;10]];
[[10;9;37;10]];
[[10;11]];
[[10;37;11]];
[[10;9;11]];
[[10;9;37;11]];
[[10;14]];
[[10;37;14]];
[[10;9;14]];
[[10;9;37;14]];
[[10;15]];
[[10;37];[15]];
[[10;9;15]];
[[10;9;37];[15]];
[[10];[16]];
[[10;37];[16]];
[[10;9];[16]];
[[10;9;37];[16]];
[[10];[17]];
[[10;37];[17]];
[[10;9];[17]];
[[10;9;37];[17]];
[[10;18]];
[[10;37];[18]];
[[10;9;18]];
[[10;9;37];[18]];
[[10;19]];
[[10;37];[19]];
[[10;9;19]];
[[10;9;37];[19]];
[[10];[20]];
[[10;37];[20]];
[[10;9];[20]];
[[10;9;37];[20]];
[[10];[21]];
[[10;37];[21]];
[[10;9];[21]];
[[10;9;37];[21]];
[[10;22]];
[[10;37;22]];
[[10;9;22]];
[[10;9;37;22]];
[[10];[23]];
[[10;37];[23]];
[[10;9];[23]];
[[10;9;37];[23]];
[[10];[24]];
[[10;37];[24]];
[[10;9];[24]];
[[10;9;37];[24]];
[[10];[25]];
[[10;37];[25]];
[[10;9];[25]];
[[10;9;37];[25]];
[[10;26]];
[[10;37;26]];
[[10;9;26]];
[[10;9;37;26]];
[[10;27]];
[[10;37;27]];
[[10;9;27]];
[[10;9;37;27]];
[[10;28]];
[[10;37;28]];
[[10;9;28]];
[[10;9;37;28]];
[[10;29]];
[[10;37];[29]];
[[10;9;29]];
[[10;9;37];[29]];
[[10];[30]];
[[10;37];[30]];
[[10;9];[30]];
[[10;9;37];[30]];
[[10;37];[31]];
[[10;9;37];[31]];
[[10;37];[32]];
[[10;9;37];[32]];
[[10;33]];
[[10;37];[33]];
[[10;9;33]];
[[10;9;37];[33]];
[[10;37]];
[[10;37;37]];
[[10;9;37]];
[[10;9;37;37]];
[[10;38]];
[[10;37;38]];
[[10;9;38]];
[[10;9;37;38]];
[[10;39]];
[[10;37;39]];
[[10;9;39]];
[[10;9;37;39]];
[[10;41]];
[[10;37;41]];
[[10;9;41]];
[[10;9;37;41]];
[[10];[34]];
[[10;37];[34]];
[[10;9];[34]];
[[10;9;37];[34]];
[[10];[12]];
[[10;37];[12]];
[[10;9];[12]];
[[10;9;37];[12]];
[[10];[13]];
[[10;37];[13]];
[[10;9];[13]];
[[10;9;37];[13]];
[[10;9]];
[[10;37];[9]];
[[10;9;9]];
[[10;9;37];[9]];
[[10;42]];
[[10;37];[42]];
[[10;9;42]];
[[10;9;37];[42]];
[[10;0]];
[[10;37];[0]];
[[10;9;0]];
[[10;9;37];[0]];
[[10;40]];
[[10;37];[40]];
[[10;9;40]];
[[10;9;37];[40]];
[[10;35]];
[[10;37];[35]];
[[10;9;35]];
[[10;9;37];[35]];
[[10;7]];
[[10;37;7]];
[[10;9;7]];
[[10;9;37;7]];
[[11];[1]];
[[11];[37];[1]];
[[11];[9;1]];
[[11];[9;37];[1]];
[[11];[2]];
[[11];[37];[2]];
[[11];[9];[2]];
[[11];[9;37];[2]];
[[11];[3]];
[[11];[37];[3]];
[[11];[9;3]];
[[11];[9;37];[3]];
[[11];[4]];
[[11];[37];[4]];
[[11];[9];[4]];
[[11];[9;37];[4]];
[[11];[5]];
[[11];[37;5]];
[[11];[9;5]];
[[11];[9;37;5]];
[[11];[6]];
[[11];[37];[6]];
[[11];[9];[6]];
[[11];[9;37];[6]];
[[11];[8]];
[[11];[37;8]];
[[11];[9;8]];
[[11];[9;37;8]];
[[11];[10]];
[[11];[37;10]];
[[11];[9;10]];
[[11];[9;37;10]];
[[11];[11]];
[[11];[37;11]];
[[11];[9;11]];
[[11];[9;37;11]];
[[11];[14]];
[[11];[37;14]];
[[11];[9;14]];
[[11];[9;37;14]];
[[11];[15]];
[[11];[37];[15]];
[[11];[9;15]];
[[11];[9;37];[15]];
[[11];[16]];
[[11];[37];[16]];
[[11];[9];[16]];
[[11];[9;37];[16]];
[[11];[17]];
[[11];[37];[17]];
[[11];[9];[17]];
[[11];[9;37];[17]];
[[11];[18]];
[[11];[37];[18]];
[[11];[9;18]];
[[11];[9;37];[18]];
[[11];[19]];
[[11];[37];[19]];
[[11];[9;19]];
[[11];[9;37];[19]];
[[11];[20]];
[[11];[37];[20]];
[[11];[9];[20]];
[[11];[9;37];[20]];
[[11];[21]];
[[11];[37];[21]];
[[11];[9;21]];
[[11];[9;37];[21]];
[[11];[22]];
[[11];[37;22]];
[[11];[9;22]];
[[11];[9;37;22]];
[[11];[23]];
[[11];[37];[23]];
[[11];[9];[23]];
[[11];[9;37];[23]];
[[11];[24]];
[[11];[37];[24]];
[[11];[9];[24]];
[[11];[9;37];[24]];
[[11];[25]];
[[11];[37];[25]];
[[11];[9];[25]];
[[11];[9;37];[25]];
[[11;26]];
[[11];[37;26]];
[[11];[9;26]];
[[11];[9;37;26]];
[[11];[27]];
[[11];[37;27]];
[[11];[9;27]];
[[11];[9;37;27]];
[[11];[28]];
[[11];[37];[28]];
[[11];[9;28]];
[[11];[9;37];[28]];
[[11];[29]];
[[11];[37];[29]];
[[11];[9;29]];
[[11];[9;37];[29]];
[[11];[30]];
[[11];[37];[30]];
[[11];[9;30]];
[[11];[9;37];[30]];
[[11];[31]];
[[11];[37];[31]];
[[11];[9;31]];
[[11];[9;37];[31]];
[[11];[32]];
[[11];[37];[32]];
[[11];[9;32]];
[[11];[9;37];[32]];
[[11];[33]];
[[11];[37];[33]];
[[11];[9;33]];
[[11];[9;37];[33]];
[[11];[37]];
[[11];[37;37]];
[[11];[9;37]];
[[11];[9;37;37]];
[[11];[38]];
[[11];[37;38]];
[[11];[9;38]];
[[11];[9;37;38]];
[[11];[39]];
[[11];[37;39]];
[[11];[9;39]];
[[11];[9;37;39]];
[[11];[41]];
[[11];[37;41]];
[[11];[9;41]];
[[11];[9;37;41]];
[[11];[34]];
[[11];[37];[34]];
[[11];[9];[34]];
[[11];[9;37];[34]];
[[11];[12]];
[[11];[37];[12]];
[[11];[9];[12]];
[[11];[9;37];[12]];
[[11];[13]];
[[11];[37];[13]];
[[11];[9];[13]];
[[11];[9;37];[13]];
[[11];[9]];
[[11];[37];[9]];
[[11];[9;9]];
[[11];[9;37];[9]];
[[11];[42]];
[[11];[37];[42]];
[[11];[9;42]];
[[11];[9;37];[42]];
[[11];[0]];
[[11];[37];[0]];
[[11];[9;0]];
[[11];[9;37];[0]];
[[11];[40]];
[[11];[37];[40]];
[[11];[9;40]];
[[11];[9;37];[40]];
[[11];[35]];
[[11];[37];[35]];
[[11];[9;35]];
[[11];[9;37];[35]];
[[11];[7]];
[[11];[37];[7]];
[[11];[9;7]];
[[11];[9;37];[7]];
[[14];[1]];
[[14;37];[1]];
[[14;9];[1]];
[[14;9;37];[1]];
[[14];[2]];
[[14;37];[2]];
[[14;9];[2]];
[[14;9;37];[2]];
[[14;3]];
[[14;37];[3]];
[[14;9;3]];
[[14;9;37];[3]];
[[14];[4]];
[[14;37];[4]];
[[14;9];[4]];
[[14;9;37];[4]];
[[14;5]];
[[14;37;5]];
[[14;9;5]];
[[14;9;37;5]];
[[14];[6]];
[[14;37];[6]];
[[14;9];[6]];
[[14;9;37];[6]];
[[14;8]];
[[14;37;8]];
[[14;9;8]];
[[14;9;37;8]];
[[14;10]];
[[14;37;10]];
[[14;9;10]];
[[14;9;37;10]];
[[14;11]];
[[14;37;11]];
[[14;9;11]];
[[14;9;37;11]];
[[14;14]];
[[14;37;14]];
[[14;9;14]];
[[14;9;37;14]];
[[14;15]];
[[14;37];[15]];
[[14;9;15]];
[[14;9;37];[15]];
[[14];[16]];
[[14;37];[16]];
[[14;9];[16]];
[[14;9;37];[16]];
[[14];[17]];
[[14;37];[17]];
[[14;9];[17]];
[[14;9;37];[17]];
[[14];[18]];
[[14;37];[18]];
[[14;9];[18]];
[[14;9;37];[18]];
[[14;19]];
[[14;37];[19]];
[[14;9;19]];
[[14;9;37];[19]];
[[14];[20]];
[[14;37];[20]];
[[14;9];[20]];
[[14;9;37];[20]];
[[14;21]];
[[14;37];[21]];
[[14;9;21]];
[[14;9;37];[21]];
[[14;22]];
[[14;37;22]];
[[14;9;22]];
[[14;9;37;22]];
[[14];[23]];
[[14;37];[23]];
[[14;9];[23]];
[[14;9;37];[23]];
[[14];[24]];
[[14;37];[24]];
[[14;9];[24]];
[[14;9;37];[24]];
[[14];[25]];
[[14;37];[25]];
[[14;9];[25]];
[[14;9;37];[25]];
[[14;26]];
[[14;37;26]];
[[14;9;26]];
[[14;9;37;26]];
[[14;27]];
[[14;37;27]];
[[14;9;27]];
[[14;9;37;27]];
[[14;28]];
[[14;37];[28]];
[[14;9;28]];
[[14;9;37];[28]];
[[14];[29]];
[[14;37];[29]];
[[14;9];[29]];
[[14;9;37];[29]];
[[14];[30]];
[[14;37];[30]];
[[14;9];[30]];
[[14;9;37];[30]];
[[14];[31]];
[[14;37];[31]];
[[14;9];[31]];
[[14;9;37];[31]];
[[14];[32]];
[[14;37];[32]];
[[14;9];[32]];
[[14;9;37];[32]];
[[14;33]];
[[14;37];[33]];
[[14;9;33]];
[[14;9;37];[33]];
[[14;37]];
[[14;37;37]];
[[14;9;37]];
[[14;9;37;37]];
[[14;38]];
[[14;37;38]];
[[14;9;38]];
[[14;9;37;38]];
[[14;39]];
[[14;37;39]];
[[14;9;39]];
[[14;9;37;39]];
[[14;41]];
[[14;37;41]];
[[14;9;41]];
[[14;9;37;41]];
[[14];[34]];
[[14;37];[34]];
[[14;9];[34]];
[[14;9;37];[34]];
[[14];[12]];
[[14;37];[12]];
[[14;9];[12]];
[[14;9;37];[12]];
[[14];[13]];
[[14;37];[13]];
[[14;9];[13]];
[[14;9;37];[13]];
[[14;9]];
[[14;37];[9]];
[[14;9;9]];
[[14;9;37];[9]];
[[14;42]];
[[14;37];[42]];
[[14;9;42]];
[[14;9;37];[42]];
[[14];[0]];
[[14;37];[0]];
[[14;9];[0]];
[[14;9;37];[0]];
[[14];[40]];
[[14;37];[40]];
[[14;9];[40]];
[[14;9;37];[40]];
[[14];[35]];
[[14;37];[35]];
[[14;9];[35]];
[[14;9;37];[35]];
[[14;7]];
[[14;37];[7]];
[[14;9;7]];
[[14;9;37];[7]];
[[15;1]];
[[15;37];[1]];
[[15;9;1]];
[[15;9;37];[1]];
[[15;2]];
[[15;37];[2]];
[[15;9;2]];
[[15;9;37];[2]];
[[15;3]];
[[15;37];[3]];
[[15;9;3]];
[[15;9;37];[3]];
[[15;4]];
[[15;37];[4]];
[[15;9;4]];
[[15;9;37];[4]];
[[15;5]];
[[15;37;5]];
[[15;9;5]];
[[15;9;37;5]];
[[15;6]];
[[15;37];[6]];
[[15;9;6]];
[[15;9;37];[6]];
[[15;8]];
[[15;37;8]];
[[15;9;8]];
[[15;9;37;8]];
[[15;10]];
[[15;37;10]];
[[15;9;10]];
[[15;9;37;10]];
[[15;11]];
[[15;37;11]];
[[15;9;11]];
[[15;9;37;11]];
[[15;14]];
[[15;37;14]];
[[15;9;14]];
[[15;9;37;14]];
[[15;15]];
[[15;37];[15]];
[[15;9;15]];
[[15;9;37];[15]];
[[15;16]];
[[15;37];[16]];
[[15;9;16]];
[[15;9;37];[16]];
[[15;17]];
[[15;37];[17]];
[[15;9;17]];
[[15;9;37];[17]];
[[15;18]];
[[15;37];[18]];
[[15;9;18]];
[[15;9;37];[18]];
[[15;19]];
[[15;37];[19]];
[[15;9;19]];
[[15;9;37];[19]];
[[15;20]];
[[15;37];[20]];
[[15;9;20]];
[[15;9;37];[20]];
[[15;21]];
[[15;37];[21]];
[[15;9;21]];
[[15;9;37];[21]];
[[15;22]];
[[15;37;22]];
[[15;9;22]];
[[15;9;37;22]];
[[15;23]];
[[15;37];[23]];
[[15;9;23]];
[[15;9;37];[23]];
[[15;24]];
[[15;37];[24]];
[[15;9;24]];
[[15;9;37];[24]];
[[15;25]];
[[15;37];[25]];
[[15;9;25]];
[[15;9;37];[25]];
[[15;26]];
[[15;37;26]];
[[15;9;26]];
[[15;9;37;26]];
[[15;27]];
[[15;37;27]];
[[15;9;27]];
[[15;9;37;27]];
[[15;28]];
[[15;37];[28]];
[[15;9;28]];
[[15;9;37];[28]];
[[15;29]];
[[15;37];[29]];
[[15;9;29]];
[[15;9;37];[29]];
[[15;30]];
[[15;37];[30]];
[[15;9;30]];
[[15;9;37];[30]];
[[15;31]];
[[15;37];[31]];
[[15;9;31]];
[[15;9;37];[31]];
[[15;32]];
[[15;37];[32]];
[[15;9;32]];
[[15;9;37];[32]];
[[15;33]];
[[15;37];[33]];
[[15;9;33]];
[[15;9;37];[33]];
[[15;37]];
[[15;37;37]];
[[15;9;37]];
[[15;9;37;37]];
[[15;38]];
[[15;37;38]];
[[15;9;38]];
[[15;9;37;38]];
[[15;39]];
[[15;37;39]];
[[15;9;39]];
[[15;9;37;39]];
[[15;41]];
[[15;37;41]];
[[15;9;41]];
[[15;9;37;41]];
[[15;34]];
[[15;37];[34]];
[[15;9;34]];
[[15;9;37];[34]];
[[15;12]];
[[15;37];[12]];
[[15;9;12]];
[[15;9;37];[12]];
[[15;13]];
[[15;37];[13]];
[[15;9;13]];
[[15;9;37];[13]];
[[15;9]];
[[15;37];[9]];
[[15;9;9]];
[[15;9;37];[9]];
[[15;42]];
[[15;37];[42]];
[[15;9;42]];
[[15;9;37];[42]];
[[15;0]];
[[15;37];[0]];
[[15;9;0]];
[[15;9;37];[0]];
[[15;40]];
[[15;37];[40]];
[[15;9;40]];
[[15;9;37];[40]];
[[15;35]];
[[15;37];[35]];
[[15;9;35]];
[[15;9;37];[35]];
[[15;7]];
[[15;37];[7]];
[[15;9;7]];
[[15;9;37];[7]];
[[16];[1]];
[[16;37];[1]];
[[16;9];[1]];
[[16;9;37];[1]];
[[16];[2]];
[[16;37];[2]];
[[16;9];[2]];
[[16;9;37];[2]];
[[16;3]];
[[16;37];[3]];
[[16;9;3]];
[[16;9;37];[3]];
[[16];[4]];
[[16;37];[4]];
[[16;9];[4]];
[[16;9;37];[4]];
[[16;5]];
[[16;37;5]];
[[16;9;5]];
[[16;9;37;5]];
[[16];[6]];
[[16;37];[6]];
[[16;9];[6]];
[[16;9;37];[6]];
[[16;8]];
[[16;37;8]];
[[16;9;8]];
[[16;9;37;8]];
[[16;10]];
[[16;37;10]];
[[16;9;10]];
[[16;9;37;10]];
[[16;11]];
[[16;37;11]];
[[16;9;11]];
[[16;9;37;11]];
[[16;14]];
[[16;37;14]];
[[16;9;14]];
[[16;9;37;14]];
[[16;15]];
[[16;37];[15]];
[[16;9;15]];
[[16;9;37];[15]];
[[16];[16]];
[[16;37];[16]];
[[16;9];[16]];
[[16;9;37];[16]];
[[16];[17]];
[[16;37];[17]];
[[16;9];[17]];
[[16;9;37];[17]];
[[16];[18]];
[[16;37];[18]];
[[16;9];[18]];
[[16;9;37];[18]];
[[16;19]];
[[16;37];[19]];
[[16;9;19]];
[[16;9;37];[19]];
[[16];[20]];
[[16;37];[20]];
[[16;9];[20]];
[[16;9;37];[20]];
[[16;21]];
[[16;37];[21]];
[[16;9;21]];
[[16;9;37];[21]];
[[16;22]];
[[16;37;22]];
[[16;9;22]];
[[16;9;37;22]];
[[16];[23]];
[[16;37];[23]];
[[16;9];[23]];
[[16;9;37];[23]];
[[16;24]];
[[16;37];[24]];
[[16;9;24]];
[[16;9;37];[24]];
[[16;25]];
[[16;37];[25]];
[[16;9;25]];
[[16;9;37];[25]];
[[16;26]];
[[16;37;26]];
[[16;9;26]];
[[16;9;37;26]];
[[16;27]];
[[16;37;27]];
[[16;9;27]];
[[16;9;37;27]];
[[16;28]];
[[16;37];[28]];
[[16;9;28]];
[[16;9;37];[28]];
[[16];[29]];
[[16;37];[29]];
[[16;9];[29]];
[[16;9;37];[29]];
[[16];[30]];
[[16;37];[30]];
[[16;9];[30]];
[[16;9;37];[30]];
[[16;31]];
[[16;37];[31]];
[[16;9;31]];
[[16;9;37];[31]];
[[16];[32]];
[[16;37];[32]];
[[16;9];[32]];
[[16;9;37];[32]];
[[16;33]];
[[16;37];[33]];
[[16;9;33]];
[[16;9;37];[33]];
[[16;37]];
[[16;37;37]];
[[16;9;37]];
[[16;9;37;37]];
[[16;38]];
[[16;37;38]];
[[16;9;38]];
[[16;9;37;38]];
[[16;39]];
[[16;37;39]];
[[16;9;39]];
[[16;9;37;39]];
[[16;41]];
[[16;37;41]];
[[16;9;41]];
[[16;9;37;41]];
[[16];[34]];
[[16;37];[34]];
[[16;9];[34]];
[[16;9;37];[34]];
[[16];[12]];
[[16;37];[12]];
[[16;9];[12]];
[[16;9;37];[12]];
[[16];[13]];
[[16;37];[13]];
[[16;9];[13]];
[[16;9;37];[13]];
[[16;9]];
[[16;37];[9]];
[[16;9;9]];
[[16;9;37];[9]];
[[16;42]];
[[16;37];[42]];
[[16;9;42]];
[[16;9;37];[42]];
[[16];[0]];
[[16;37];[0]];
[[16;9];[0]];
[[16;9;37];[0]];
[[16];[40]];
[[16;37];[40]];
[[16;9];[40]];
[[16;9;37];[40]];
[[16];[35]];
[[16;37];[35]];
[[16;9];[35]];
[[16;9;37];[35]];
[[16;7]];
[[16;37];[7]];
[[16;9;7]];
[[16;9;37];[7]];
[[17];[1]];
[[17;37];[1]];
[[17;9];[1]];
[[17;9;37];[1]];
[[17];[2]];
[[17;37];[2]];
[[17;9];[2]];
[[17;9;37];[2]];
[[17;3]];
[[17;37];[3]];
[[17;9;3]];
[[17;9;37];[3]];
[[17];[4]];
[[17;37];[4]];
[[17;9];[4]];
[[17;9;37];[4]];
[[17;5]];
[[17;37;5]];
[[17;9;5]];
[[17;9;37;5]];
[[17];[6]];
[[17;37];[6]];
[[17;9];[6]];
[[17;9;37];[6]];
[[17;8]];
[[17;37;8]];
[[17;9;8]];
[[17;9;37;8]];
[[17;10]];
[[17;37;10]];
[[17;9;10]];
[[17;9;37;10]];
[[17;11]];
[[17;37;11]];
[[17;9;11]];
[[17;9;37;11]];
[[17;14]];
[[17;37;14]];
[[17;9;14]];
[[17;9;37;14]];
[[17;15]];
[[17;37];[15]];
[[17;9;15]];
[[17;9;37];[15]];
[[17];[16]];
[[17;37];[16]];
[[17;9];[16]];
[[17;9;37];[16]];
[[17];[17]];
[[17;37];[17]];
[[17;9];[17]];
[[17;9;37];[17]];
[[17];[18]];
[[17;37];[18]];
[[17;9];[18]];
[[17;9;37];[18]];
[[17;19]];
[[17;37];[19]];
[[17;9;19]];
[[17;9;37];[19]];
[[17];[20]];
[[17;37];[20]];
[[17;9];[20]];
[[17;9;37];[20]];
[[17;21]];
[[17;37];[21]];
[[17;9;21]];
[[17;9;37];[21]];
[[17;22]];
[[17;37;22]];
[[17;9;22]];
[[17;9;37;22]];
[[17];[23]];
[[17;37];[23]];
[[17;9];[23]];
[[17;9;37];[23]];
[[17;24]];
[[17;37];[24]];
[[17;9;24]];
[[17;9;37];[24]];
[[17];[25]];
[[17;37];[25]];
[[17;9];[25]];
[[17;9;37];[25]];
[[17;26]];
[[17;37;26]];
[[17;9;26]];
[[17;9;37;26]];
[[17;27]];
[[17;37;27]];
[[17;9;27]];
[[17;9;37;27]];
[[17;28]];
[[17;37];[28]];
[[17;9;28]];
[[17;9;37];[28]];
[[17];[29]];
[[17;37];[29]];
[[17;9];[29]];
[[17;9;37];[29]];
[[17];[30]];
[[17;37];[30]];
[[17;9];[30]];
[[17;9;37];[30]];
[[17;31]];
[[17;37];[31]];
[[17;9;31]];
[[17;9;37];[31]];
[[17];[32]];
[[17;37];[32]];
[[17;9];[32]];
[[17;9;37];[32]];
[[17;33]];
[[17;37];[33]];
[[17;9;33]];
[[17;9;37];[33]];
[[17;37]];
[[17;37;37]];
[[17;9;37]];
[[17;9;37;37]];
[[17;38]];
[[17;37;38]];
[[17;9;38]];
[[17;9;37;38]];
[[17;39]];
[[17;37;39]];
[[17;9;39]];
[[17;9;37;39]];
[[17;41]];
[[17;37;41]];
[[17;9;41]];
[[17;9;37;41]];
[[17];[34]];
[[17;37];[34]];
[[17;9];[34]];
[[17;9;37];[34]];
[[17];[12]];
[[17;37];[12]];
[[17;9];[12]];
[[17;9;37];[12]];
[[17];[13]];
[[17;37];[13]];
[[17;9];[13]];
[[17;9;37];[13]];
[[17;9]];
[[17;37];[9]];
[[17;9;9]];
[[17;9;37];[9]];
[[17;42]];
[[17;37];[42]];
[[17;9;42]];
[[17;9;37];[42]];
[[17];[0]];
[[17;37];[0]];
[[17;9];[0]];
[[17;9;37];[0]];
[[17];[40]];
[[17;37];[40]];
[[17;9];[40]];
[[17;9;37];[40]];
[[17];[35]];
[[17;37];[35]];
[[17;9];[35]];
[[17;9;37];[35]];
[[17;7]];
[[17;37];[7]];
[[17;9;7]];
[[17;9;37];[7]];
[[18;1]];
[[18;37];[1]];
[[18;9;1]];
[[18;9;37];[1]];
[[18];[2]];
[[18;37];[2]];
[[18;9];[2]];
[[18;9;37];[2]];
[[18;3]];
[[18;37];[3]];
[[18;9;3]];
[[18;9;37];[3]];
[[18];[4]];
[[18;37];[4]];
[[18;9];[4]];
[[18;9;37];[4]];
[[18;5]];
[[18;37;5]];
[[18;9;5]];
[[18;9;37;5]];
[[18];[6]];
[[18;37];[6]];
[[18;9];[6]];
[[18;9;37];[6]];
[[18;8]];
[[18;37;8]];
[[18;9;8]];
[[18;9;37;8]];
[[18;10]];
[[18;37;10]];
[[18;9;10]];
[[18;9;37;10]];
[[18;11]];
[[18;37;11]];
[[18;9;11]];
[[18;9;37;11]];
[[18;14]];
[[18;37;14]];
[[18;9;14]];
[[18;9;37;14]];
[[18;15]];
[[18;37];[15]];
[[18;9;15]];
[[18;9;37];[15]];
[[18];[16]];
[[18;37];[16]];
[[18;9];[16]];
[[18;9;37];[16]];
[[18];[17]];
[[18;37];[17]];
[[18;9];[17]];
[[18;9;37];[17]];
[[18;18]];
[[18;37];[18]];
[[18;9;18]];
[[18;9;37];[18]];
[[18;19]];
[[18;37];[19]];
[[18;9;19]];
[[18;9;37];[19]];
[[18];[20]];
[[18;37];[20]];
[[18;9];[20]];
[[18;9;37];[20]];
[[18;21]];
[[18;37];[21]];
[[18;9;21]];
[[18;9;37];[21]];
[[18;22]];
[[18;37;22]];
[[18;9;22]];
[[18;9;37;22]];
[[18];[23]];
[[18;37];[23]];
[[18;9];[23]];
[[18;9;37];[23]];
[[18];[24]];
[[18;37];[24]];
[[18;9];[24]];
[[18;9;37];[24]];
[[18];[25]];
[[18;37];[25]];
[[18;9];[25]];
[[18;9;37];[25]];
[[18;26]];
[[18;37;26]];
[[18;9;26]];
[[18;9;37;26]];
[[18;27]];
[[18;37;27]];
[[18;9;27]];
[[18;9;37;27]];
[[18;28]];
[[18;37];[28]];
[[18;9;28]];
[[18;9;37];[28]];
[[18;29]];
[[18;37];[29]];
[[18;9;29]];
[[18;9;37];[29]];
[[18;30]];
[[18;37];[30]];
[[18;9;30]];
[[18;9;37];[30]];
[[18;31]];
[[18;37];[31]];
[[18;9;31]];
[[18;9;37];[31]];
[[18;32]];
[[18;37];[32]];
[[18;9;32]];
[[18;9;37];[32]];
[[18;33]];
[[18;37];[33]];
[[18;9;33]];
[[18;9;37];[33]];
[[18;37]];
[[18;37;37]];
[[18;9;37]];
[[18;9;37;37]];
[[18;38]];
[[18;37;38]];
[[18;9;38]];
[[18;9;37;38]];
[[18;39]];
[[18;37;39]];
[[18;9;39]];
[[18;9;37;39]];
[[18;41]];
[[18;37;41]];
[[18;9;41]];
[[18;9;37;41]];
[[18];[34]];
[[18;37];[34]];
[[18;9];[34]];
[[18;9;37];[34]];
[[18];[12]];
[[18;37];[12]];
[[18;9];[12]];
[[18;9;37];[12]];
[[18];[13]];
[[18;37];[13]];
[[18;9];[13]];
[[18;9;37];[13]];
[[18;9]];
[[18;37];[9]];
[[18;9;9]];
[[18;9;37];[9]];
[[18;42]];
[[18;37];[42]];
[[18;9;42]];
[[18;9;37];[42]];
[[18;0]];
[[18;37];[0]];
[[18;9;0]];
[[18;9;37];[0]];
[[18;40]];
[[18;37];[40]];
[[18;9;40]];
[[18;9;37];[40]];
[[18;35]];
[[18;37];[35]];
[[18;9;35]];
[[18;9;37];[35]];
[[18;7]];
[[18;37];[7]];
[[18;9;7]];
[[18;9;37];[7]];
[[19];[1]];
[[19;37];[1]];
[[19;9];[1]];
[[19;9;37];[1]];
[[19];[2]];
[[19;37];[2]];
[[19;9];[2]];
[[19;9;37];[2]];
[[19;3]];
[[19;37];[3]];
[[19;9;3]];
[[19;9;37];[3]];
[[19];[4]];
[[19;37];[4]];
[[19;9];[4]];
[[19;9;37];[4]];
[[19;5]];
[[19;37;5]];
[[19;9;5]];
[[19;9;37;5]];
[[19];[6]];
[[19;37];[6]];
[[19;9];[6]];
[[19;9;37];[6]];
[[19;8]];
[[19;37;8]];
[[19;9;8]];
[[19;9;37;8]];
[[19;10]];
[[19;37;10]];
[[19;9;10]];
[[19;9;37;10]];
[[19;11]];
[[19;37;11]];
[[19;9;11]];
[[19;9;37;11]];
[[19;14]];
[[19;37;14]];
[[19;9;14]];
[[19;9;37;14]];
[[19];[15]];
[[19;37];[15]];
[[19;9];[15]];
[[19;9;37];[15]];
[[19];[16]];
[[19;37];[16]];
[[19;9];[16]];
[[19;9;37];[16]];
[[19];[17]];
[[19;37];[17]];
[[19;9];[17]];
[[19;9;37];[17]];
[[19];[18]];
[[19;37];[18]];
[[19;9];[18]];
[[19;9;37];[18]];
[[19;19]];
[[19;37];[19]];
[[19;9;19]];
[[19;9;37];[19]];
[[19];[20]];
[[19;37];[20]];
[[19;9];[20]];
[[19;9;37];[20]];
[[19];[21]];
[[19;37];[21]];
[[19;9];[21]];
[[19;9;37];[21]];
[[19;22]];
[[19;37;22]];
[[19;9;22]];
[[19;9;37;22]];
[[19];[23]];
[[19;37];[23]];
[[19;9];[23]];
[[19;9;37];[23]];
[[19];[24]];
[[19;37];[24]];
[[19;9];[24]];
[[19;9;37];[24]];
[[19];[25]];
[[19;37];[25]];
[[19;9];[25]];
[[19;9;37];[25]];
[[19;26]];
[[19;37;26]];
[[19;9;26]];
[[19;9;37;26]];
[[19;27]];
[[19;37;27]];
[[19;9;27]];
[[19;9;37;27]];
[[19;28]];
[[19;37];[28]];
[[19;9;28]];
[[19;9;37];[28]];
[[19;29]];
[[19;37];[29]];
[[19;9;29]];
[[19;9;37];[29]];
[[19];[30]];
[[19;37];[30]];
[[19;9];[30]];
[[19;9;37];[30]];
[[19];[31]];
[[19;37];[31]];
[[19;9];[31]];
[[19;9;37];[31]];
[[19];[32]];
[[19;37];[32]];
[[19;9];[32]];
[[19;9;37];[32]];
[[19;33]];
[[19;37];[33]];
[[19;9;33]];
[[19;9;37];[33]];
[[19;37]];
[[19;37;37]];
[[19;9;37]];
[[19;9;37;37]];
[[19;38]];
[[19;37;38]];
[[19;9;38]];
[[19;9;37;38]];
[[19;39]];
[[19;37;39]];
[[19;9;39]];
[[19;9;37;39]];
[[19;41]];
[[19;37;41]];
[[19;9;41]];
[[19;9;37;41]];
[[19];[34]];
[[19;37];[34]];
[[19;9];[34]];
[[19;9;37];[34]];
[[19];[12]];
[[19;37];[12]];
[[19;9];[12]];
[[19;9;37];[12]];
[[19];[13]];
[[19;37];[13]];
[[19;9];[13]];
[[19;9;37];[13]];
[[19;9]];
[[19;37];[9]];
[[19;9;9]];
[[19;9;37];[9]];
[[19;42]];
[[19;37];[42]];
[[19;9;42]];
[[19;9;37];[42]];
[[19];[0]];
[[19;37];[0]];
[[19;9];[0]];
[[19;9;37];[0]];
[[19];[40]];
[[19;37];[40]];
[[19;9];[40]];
[[19;9;37];[40]];
[[19];[35]];
[[19;37];[35]];
[[19;9];[35]];
[[19;9;37];[35]];
[[19;7]];
[[19;37];[7]];
[[19;9;7]];
[[19;9;37];[7]];
[[20];[1]];
[[20;37];[1]];
[[20;9];[1]];
[[20;9;37];[1]];
[[20];[2]];
[[20;37];[2]];
[[20;9];[2]];
[[20;9;37];[2]];
[[20;3]];
[[20;37];[3]];
[[20;9;3]];
[[20;9;37];[3]];
[[20];[4]];
[[20;37];[4]];
[[20;9];[4]];
[[20;9;37];[4]];
[[20;5]];
[[20;37;5]];
[[20;9;5]];
[[20;9;37;5]];
[[20];[6]];
[[20;37];[6]];
[[20;9];[6]];
[[20;9;37];[6]];
[[20;8]];
[[20;37;8]];
[[20;9;8]];
[[20;9;37;8]];
[[20;10]];
[[20;37;10]];
[[20;9;10]];
[[20;9;37;10]];
[[20;11]];
[[20;37;11]];
[[20;9;11]];
[[20;9;37;11]];
[[20;14]];
[[20;37;14]];
[[20;9;14]];
[[20;9;37;14]];
[[20;15]];
[[20;37];[15]];
[[20;9;15]];
[[20;9;37];[15]];
[[20];[16]];
[[20;37];[16]];
[[20;9];[16]];
[[20;9;37];[16]];
[[20];[17]];
[[20;37];[17]];
[[20;9];[17]];
[[20;9;37];[17]];
[[20];[18]];
[[20;37];[18]];
[[20;9];[18]];
[[20;9;37];[18]];
[[20;19]];
[[20;37];[19]];
[[20;9;19]];
[[20;9;37];[19]];
[[20];[20]];
[[20;37];[20]];
[[20;9];[20]];
[[20;9;37];[20]];
[[20;21]];
[[20;37];[21]];
[[20;9;21]];
[[20;9;37];[21]];
[[20;22]];
[[20;37;22]];
[[20;9;22]];
[[20;9;37;22]];
[[20];[23]];
[[20;37];[23]];
[[20;9];[23]];
[[20;9;37];[23]];
[[20];[24]];
[[20;37];[24]];
[[20;9];[24]];
[[20;9;37];[24]];
[[20];[25]];
[[20;37];[25]];
[[20;9];[25]];
[[20;9;37];[25]];
[[20;26]];
[[20;37;26]];
[[20;9;26]];
[[20;9;37;26]];
[[20;27]];
[[20;37;27]];
[[20;9;27]];
[[20;9;37;27]];
[[20;28]];
[[20;37];[28]];
[[20;9;28]];
[[20;9;37];[28]];
[[20];[29]];
[[20;37];[29]];
[[20;9];[29]];
[[20;9;37];[29]];
[[20];[30]];
[[20;37];[30]];
[[20;9];[30]];
[[20;9;37];[30]];
[[20;31]];
[[20;37];[31]];
[[20;9;31]];
[[20;9;37];[31]];
[[20];[32]];
[[20;37];[32]];
[[20;9];[32]];
[[20;9;37];[32]];
[[20;33]];
[[20;37];[33]];
[[20;9;33]];
[[20;9;37];[33]];
[[20;37]];
[[20;37;37]];
[[20;9;37]];
[[20;9;37;37]];
[[20;38]];
[[20;37;38]];
[[20;9;38]];
[[20;9;37;38]];
[[20;39]];
[[20;37;39]];
[[20;9;39]];
[[20;9;37;39]];
[[20;41]];
[[20;37;41]];
[[20;9;41]];
[[20;9;37;41]];
[[20];[34]];
[[20;37];[34]];
[[20;9];[34]];
[[20;9;37];[34]];
[[20];[12]];
[[20;37];[12]];
[[20;9];[12]];
[[20;9;37];[12]];
[[20];[13]];
[[20;37];[13]];
[[20;9];[13]];
[[20;9;37];[13]];
[[20;9]];
[[20;37];[9]];
[[20;9;9]];
[[20;9;37];[9]];
[[20;42]];
[[20;37];[42]];
[[20;9;42]];
[[20;9;37];[42]];
[[20];[0]];
[[20;37];[0]];
[[20;9];[0]];
[[20;9;37];[0]];
[[20];[40]];
[[20;37];[40]];
[[20;9];[40]];
[[20;9;37];[40]];
[[20];[35]];
[[20;37];[35]];
[[20;9];[35]];
[[20;9;37];[35]];
[[20;7]];
[[20;37];[7]];
[[20;9;7]];
[[20;9;37];[7]];
[[21];[1]];
[[21;37];[1]];
[[21;9];[1]];
[[21;9;37];[1]];
[[21];[2]];
[[21;37];[2]];
[[21;9];[2]];
[[21;9;37];[2]];
[[21;3]];
[[21;37];[3]];
[[21;9;3]];
[[21;9;37];[3]];
[[21];[4]];
[[21;37];[4]];
[[21;9];[4]];
[[21;9;37];[4]];
[[21;5]];
[[21;37;5]];
[[21;9;5]];
[[21;9;37;5]];
[[21];[6]];
[[21;37];[6]];
[[21;9];[6]];
[[21;9;37];[6]];
[[21;8]];
[[21;37;8]];
[[21;9;8]];
[[21;9;37;8]];
[[21;10]];
[[21;37;10]];
[[21;9;10]];
[[21;9;37;10]];
[[21;11]];
[[21;37;11]];
[[21;9;11]];
[[21;9;37;11]];
[[21;14]];
[[21;37;14]];
[[21;9;14]];
[[21;9;37;14]];
[[21;15]];
[[21;37];[15]];
[[21;9;15]];
[[21;9;37];[15]];
[[21];[16]];
[[21;37];[16]];
[[21;9];[16]];
[[21;9;37];[16]];
[[21];[17]];
[[21;37];[17]];
[[21;9];[17]];
[[21;9;37];[17]];
[[21];[18]];
[[21;37];[18]];
[[21;9];[18]];
[[21;9;37];[18]];
[[21;19]];
[[21;37];[19]];
[[21;9;19]];
[[21;9;37];[19]];
[[21];[20]];
[[21;37];[20]];
[[21;9];[20]];
[[21;9;37];[20]];
[[21;21]];
[[21;37];[21]];
[[21;9;21]];
[[21;9;37];[21]];
[[21;22]];
[[21;37;22]];
[[21;9;22]];
[[21;9;37;22]];
[[21];[23]];
[[21;37];[23]];
[[21;9];[23]];
[[21;9;37];[23]];
[[21];[24]];
[[21;37];[24]];
[[21;9];[24]];
[[21;9;37];[24]];
[[21];[25]];
[[21;37];[25]];
[[21;9];[25]];
[[21;9;37];[25]];
[[21;26]];
[[21;37;26]];
[[21;9;26]];
[[21;9;37;26]];
[[21;27]];
[[21;37;27]];
[[21;9;27]];
[[21;9;37;27]];
[[21;28]];
[[21;37];[28]];
[[21;9;28]];
[[21;9;37];[28]];
[[21];[29]];
[[21;37];[29]];
[[21;9];[29]];
[[21;9;37];[29]];
[[21];[30]];
[[21;37];[30]];
[[21;9];[30]];
[[21;9;37];[30]];
[[21];[31]];
[[21;37];[31]];
[[21;9];[31]];
[[21;9;37];[31]];
[[21];[32]];
[[21;37];[32]];
[[21;9];[32]];
[[21;9;37];[32]];
[[21;33]];
[[21;37];[33]];
[[21;9;33]];
[[21;9;37];[33]];
[[21;37]];
[[21;37;37]];
[[21;9;37]];
[[21;9;37;37]];
[[21;38]];
[[21;37;38]];
[[21;9;38]];
[[21;9;37;38]];
[[21;39]];
[[21;37;39]];
[[21;9;39]];
[[21;9;37;39]];
[[21;41]];
[[21;37;41]];
[[21;9;41]];
[[21;9;37;41]];
[[21];[34]];
[[21;37];[34]];
[[21;9];[34]];
[[21;9;37];[34]];
[[21];[12]];
[[21;37];[12]];
[[21;9];[12]];
[[21;9;37];[12]];
[[21];[13]];
[[21;37];[13]];
[[21;9];[13]];
[[21;9;37];[13]];
[[21;9]];
[[21;37];[9]];
[[21;9;9]];
[[21;9;37];[9]];
[[21;42]];
[[21;37];[42]];
[[21;9;42]];
[[21;9;37];[42]];
[[21];[0]];
[[21;37];[0]];
[[21;9];[0]];
[[21;9;37];[0]];
[[21];[40]];
[[21;37];[40]];
[[21;9];[40]];
[[21;9;37];[40]];
[[21];[35]];
[[21;37];[35]];
[[21;9];[35]];
[[21;9;37];[35]];
[[21;7]];
[[21;37];[7]];
[[21;9;7]];
[[21;9;37];[7]];
[[22;1]];
[[22;37];[1]];
[[22;9;1]];
[[22;9;37];[1]];
[[22];[2]];
[[22;37];[2]];
[[22;9];[2]];
[[22;9;37];[2]];
[[22;3]];
[[22;37];[3]];
[[22;9;3]];
[[22;9;37];[3]];
[[22];[4]];
[[22;37];[4]];
[[22;9];[4]];
[[22;9;37];[4]];
[[22;5]];
[[22;37;5]];
[[22;9;5]];
[[22;9;37;5]];
[[22];[6]];
[[22;37];[6]];
[[22;9];[6]];
[[22;9;37];[6]];
[[22;8]];
[[22;37;8]];
[[22;9;8]];
[[22;9;37;8]];
[[22;10]];
[[22;37;10]];
[[22;9;10]];
[[22;9;37;10]];
[[22;11]];
[[22;37;11]];
[[22;9;11]];
[[22;9;37;11]];
[[22;14]];
[[22;37;14]];
[[22;9;14]];
[[22;9;37;14]];
[[22;15]];
[[22;37];[15]];
[[22;9;15]];
[[22;9;37];[15]];
[[22];[16]];
[[22;37];[16]];
[[22;9];[16]];
[[22;9;37];[16]];
[[22];[17]];
[[22;37];[17]];
[[22;9];[17]];
[[22;9;37];[17]];
[[22;18]];
[[22;37];[18]];
[[22;9;18]];
[[22;9;37];[18]];
[[22;19]];
[[22;37];[19]];
[[22;9;19]];
[[22;9;37];[19]];
[[22];[20]];
[[22;37];[20]];
[[22;9];[20]];
[[22;9;37];[20]];
[[22];[21]];
[[22;37];[21]];
[[22;9];[21]];
[[22;9;37];[21]];
[[22;22]];
[[22;37;22]];
[[22;9;22]];
[[22;9;37;22]];
[[22];[23]];
[[22;37];[23]];
[[22;9];[23]];
[[22;9;37];[23]];
[[22];[24]];
[[22;37];[24]];
[[22;9];[24]];
[[22;9;37];[24]];
[[22];[25]];
[[22;37];[25]];
[[22;9];[25]];
[[22;9;37];[25]];
[[22;26]];
[[22;37;26]];
[[22;9;26]];
[[22;9;37;26]];
[[22;27]];
[[22;37;27]];
[[22;9;27]];
[[22;9;37;27]];
[[22;28]];
[[22;37];[28]];
[[22;9;28]];
[[22;9;37];[28]];
[[22;37];[29]];
[[22;9;37];[29]];
[[22];[30]];
[[22;37];[30]];
[[22;9];[30]];
[[22;9;37];[30]];
[[22];[31]];
[[22;37];[31]];
[[22;9];[31]];
[[22;9;37];[31]];
[[22];[32]];
[[22;37];[32]];
[[22;9];[32]];
[[22;9;37];[32]];
[[22;33]];
[[22;37];[33]];
[[22;9;33]];
[[22;9;37];[33]];
[[22;37]];
[[22;37;37]];
[[22;9;37]];
[[22;9;37;37]];
[[22;38]];
[[22;37;38]];
[[22;9;38]];
[[22;9;37;38]];
[[22;39]];
[[22;37;39]];
[[22;9;39]];
[[22;9;37;39]];
[[22;41]];
[[22;37;41]];
[[22;9;41]];
[[22;9;37;41]];
[[22];[34]];
[[22;37];[34]];
[[22;9];[34]];
[[22;9;37];[34]];
[[22];[12]];
[[22;37];[12]];
[[22;9];[12]];
[[22;9;37];[12]];
[[22];[13]];
[[22;37];[13]];
[[22;9];[13]];
[[22;9;37];[13]];
[[22;9]];
[[22;37];[9]];
[[22;9;9]];
[[22;9;37];[9]];
[[22;42]];
[[22;37];[42]];
[[22;9;42]];
[[22;9;37];[42]];
[[22;0]];
[[22;37];[0]];
[[22;9;0]];
[[22;9;37];[0]];
[[22;40]];
[[22;37];[40]];
[[22;9;40]];
[[22;9;37];[40]];
[[22;35]];
[[22;37];[35]];
[[22;9;35]];
[[22;9;37];[35]];
[[22;7]];
[[22;37];[7]];
[[22;9;7]];
[[22;9;37];[7]];
[[23];[1]];
[[23;37];[1]];
[[23;9];[1]];
[[23;9;37];[1]];
[[23];[2]];
[[23;37];[2]];
[[23;9];[2]];
[[23;9;37];[2]];
[[23;3]];
[[23;37];[3]];
[[23;9;3]];
[[23;9;37];[3]];
[[23];[4]];
[[23;37];[4]];
[[23;9];[4]];
[[23;9;37];[4]];
[[23;5]];
[[23;37;5]];
[[23;9;5]];
[[23;9;37;5]];
[[23];[6]];
[[23;37];[6]];
[[23;9];[6]];
[[23;9;37];[6]];
[[23;8]];
[[23;37;8]];
[[23;9;8]];
[[23;9;37;8]];
[[23;10]];
[[23;37;10]];
[[23;9;10]];
[[23;9;37;10]];
[[23;11]];
[[23;37;11]];
[[23;9;11]];
[[23;9;37;11]];
[[23;14]];
[[23;37;14]];
[[23;9;14]];
[[23;9;37;14]];
[[23;15]];
[[23;37];[15]];
[[23;9;15]];
[[23;9;37];[15]];
[[23;16]];
[[23;37];[16]];
[[23;9;16]];
[[23;9;37];[16]];
[[23;17]];
[[23;37];[17]];
[[23;9;17]];
[[23;9;37];[17]];
[[23];[18]];
[[23;37];[18]];
[[23;9];[18]];
[[23;9;37];[18]];
[[23;19]];
[[23;37];[19]];
[[23;9;19]];
[[23;9;37];[19]];
[[23];[20]];
[[23;37];[20]];
[[23;9];[20]];
[[23;9;37];[20]];
[[23;21]];
[[23;37];[21]];
[[23;9;21]];
[[23;9;37];[21]];
[[23;22]];
[[23;37;22]];
[[23;9;22]];
[[23;9;37;22]];
[[23;23]];
[[23;37];[23]];
[[23;9;23]];
[[23;9;37];[23]];
[[23];[24]];
[[23;37];[24]];
[[23;9];[24]];
[[23;9;37];[24]];
[[23;25]];
[[23;37];[25]];
[[23;9;25]];
[[23;9;37];[25]];
[[23;26]];
[[23;37;26]];
[[23;9;26]];
[[23;9;37;26]];
[[23;27]];
[[23;37;27]];
[[23;9;27]];
[[23;9;37;27]];
[[23;28]];
[[23;37];[28]];
[[23;9;28]];
[[23;9;37];[28]];
[[23];[29]];
[[23;37];[29]];
[[23;9];[29]];
[[23;9;37];[29]];
[[23];[30]];
[[23;37];[30]];
[[23;9];[30]];
[[23;9;37];[30]];
[[23;31]];
[[23;37];[31]];
[[23;9;31]];
[[23;9;37];[31]];
[[23];[32]];
[[23;37];[32]];
[[23;9];[32]];
[[23;9;37];[32]];
[[23;33]];
[[23;37];[33]];
[[23;9;33]];
[[23;9;37];[33]];
[[23;37]];
[[23;37;37]];
[[23;9;37]];
[[23;9;37;37]];
[[23;38]];
[[23;37;38]];
[[23;9;38]];
[[23;9;37;38]];
[[23;39]];
[[23;37;39]];
[[23;9;39]];
[[23;9;37;39]];
[[23;41]];
[[23;37;41]];
[[23;9;41]];
[[23;9;37;41]];
[[23];[34]];
[[23;37];[34]];
[[23;9];[34]];
[[23;9;37];[34]];
[[23];[12]];
[[23;37];[12]];
[[23;9];[12]];
[[23;9;37];[12]];
[[23];[13]];
[[23;37];[13]];
[[23;9];[13]];
[[23;9;37];[13]];
[[23;9]];
[[23;37];[9]];
[[23;9;9]];
[[23;9;37];[9]];
[[23;42]];
[[23;37];[42]];
[[23;9;42]];
[[23;9;37];[42]];
[[23];[0]];
[[23;37];[0]];
[[23;9];[0]];
[[23;9;37];[0]];
[[23];[40]];
[[23;37];[40]];
[[23;9];[40]];
[[23;9;37];[40]];
[[23];[35]];
[[23;37];[35]];
[[23;9];[35]];
[[23;9;37];[35]];
[[23;7]];
[[23;37];[7]];
[[23;9;7]];
[[23;9;37];[7]];
[[24];[1]];
[[24;37];[1]];
[[24;9];[1]];
[[24;9;37];[1]];
[[24];[2]];
[[24;37];[2]];
[[24;9];[2]];
[[24;9;37];[2]];
[[24;3]];
[[24;37];[3]];
[[24;9;3]];
[[24;9;37];[3]];
[[24];[4]];
[[24;37];[4]];
[[24;9];[4]];
[[24;9;37];[4]];
[[24;5]];
[[24;37;5]];
[[24;9;5]];
[[24;9;37;5]];
[[24];[6]];
[[24;37];[6]];
[[24;9];[6]];
[[24;9;37];[6]];
[[24;8]];
[[24;37;8]];
[[24;9;8]];
[[24;9;37;8]];
[[24;10]];
[[24;37;10]];
[[24;9;10]];
[[24;9;37;10]];
[[24;11]];
[[24;37;11]];
[[24;9;11]];
[[24;9;37;11]];
[[24;14]];
[[24;37;14]];
[[24;9;14]];
[[24;9;37;14]];
[[24;15]];
[[24;37];[15]];
[[24;9;15]];
[[24;9;37];[15]];
[[24];[16]];
[[24;37];[16]];
[[24;9];[16]];
[[24;9;37];[16]];
[[24];[17]];
[[24;37];[17]];
[[24;9];[17]];
[[24;9;37];[17]];
[[24];[18]];
[[24;37];[18]];
[[24;9];[18]];
[[24;9;37];[18]];
[[24;19]];
[[24;37];[19]];
[[24;9;19]];
[[24;9;37];[19]];
[[24];[20]];
[[24;37];[20]];
[[24;9];[20]];
[[24;9;37];[20]];
[[24;21]];
[[24;37];[21]];
[[24;9;21]];
[[24;9;37];[21]];
[[24;22]];
[[24;37;22]];
[[24;9;22]];
[[24;9;37;22]];
[[24];[23]];
[[24;37];[23]];
[[24;9];[23]];
[[24;9;37];[23]];
[[24;24]];
[[24;37];[24]];
[[24;9;24]];
[[24;9;37];[24]];
[[24];[25]];
[[24;37];[25]];
[[24;9];[25]];
[[24;9;37];[25]];
[[24;26]];
[[24;37;26]];
[[24;9;26]];
[[24;9;37;26]];
[[24;27]];
[[24;37;27]];
[[24;9;27]];
[[24;9;37;27]];
[[24;28]];
[[24;37];[28]];
[[24;9;28]];
[[24;9;37];[28]];
[[24];[29]];
[[24;37];[29]];
[[24;9];[29]];
[[24;9;37];[29]];
[[24];[30]];
[[24;37];[30]];
[[24;9];[30]];
[[24;9;37];[30]];
[[24;31]];
[[24;37];[31]];
[[24;9;31]];
[[24;9;37];[31]];
[[24];[32]];
[[24;37];[32]];
[[24;9];[32]];
[[24;9;37];[32]];
[[24;33]];
[[24;37];[33]];
[[24;9;33]];
[[24;9;37];[33]];
[[24;37]];
[[24;37;37]];
[[24;9;37]];
[[24;9;37;37]];
[[24;38]];
[[24;37;38]];
[[24;9;38]];
[[24;9;37;38]];
[[24;39]];
[[24;37;39]];
[[24;9;39]];
[[24;9;37;39]];
[[24;41]];
[[24;37;41]];
[[24;9;41]];
[[24;9;37;41]];
[[24];[34]];
[[24;37];[34]];
[[24;9];[34]];
[[24;9;37];[34]];
[[24];[12]];
[[24;37];[12]];
[[24;9];[12]];
[[24;9;37];[12]];
[[24];[13]];
[[24;37];[13]];
[[24;9];[13]];
[[24;9;37];[13]];
[[24;9]];
[[24;37];[9]];
[[24;9;9]];
[[24;9;37];[9]];
[[24;42]];
[[24;37];[42]];
[[24;9;42]];
[[24;9;37];[42]];
[[24];[0]];
[[24;37];[0]];
[[24;9];[0]];
[[24;9;37];[0]];
[[24];[40]];
[[24;37];[40]];
[[24;9];[40]];
[[24;9;37];[40]];
[[24];[35]];
[[24;37];[35]];
[[24;9];[35]];
[[24;9;37];[35]];
[[24;7]];
[[24;37];[7]];
[[24;9;7]];
[[24;9;37];[7]];
[[25];[1]];
[[25;37];[1]];
[[25;9];[1]];
[[25;9;37];[1]];
[[25];[2]];
[[25;37];[2]];
[[25;9];[2]];
[[25;9;37];[2]];
[[25;3]];
[[25;37];[3]];
[[25;9;3]];
[[25;9;37];[3]];
[[25];[4]];
[[25;37];[4]];
[[25;9];[4]];
[[25;9;37];[4]];
[[25;5]];
[[25;37;5]];
[[25;9;5]];
[[25;9;37;5]];
[[25];[6]];
[[25;37];[6]];
[[25;9];[6]];
[[25;9;37];[6]];
[[25;8]];
[[25;37;8]];
[[25;9;8]];
[[25;9;37;8]];
[[25;10]];
[[25;37;10]];
[[25;9;10]];
[[25;9;37;10]];
[[25;11]];
[[25;37;11]];
[[25;9;11]];
[[25;9;37;11]];
[[25;14]];
[[25;37;14]];
[[25;9;14]];
[[25;9;37;14]];
[[25;15]];
[[25;37];[15]];
[[25;9;15]];
[[25;9;37];[15]];
[[25];[16]];
[[25;37];[16]];
[[25;9];[16]];
[[25;9;37];[16]];
[[25];[17]];
[[25;37];[17]];
[[25;9];[17]];
[[25;9;37];[17]];
[[25];[18]];
[[25;37];[18]];
[[25;9];[18]];
[[25;9;37];[18]];
[[25;19]];
[[25;37];[19]];
[[25;9;19]];
[[25;9;37];[19]];
[[25];[20]];
[[25;37];[20]];
[[25;9];[20]];
[[25;9;37];[20]];
[[25;21]];
[[25;37];[21]];
[[25;9;21]];
[[25;9;37];[21]];
[[25;22]];
[[25;37;22]];
[[25;9;22]];
[[25;9;37;22]];
[[25];[23]];
[[25;37];[23]];
[[25;9];[23]];
[[25;9;37];[23]];
[[25;24]];
[[25;37];[24]];
[[25;9;24]];
[[25;9;37];[24]];
[[25;25]];
[[25;37];[25]];
[[25;9;25]];
[[25;9;37];[25]];
[[25;26]];
[[25;37;26]];
[[25;9;26]];
[[25;9;37;26]];
[[25;27]];
[[25;37;27]];
[[25;9;27]];
[[25;9;37;27]];
[[25;28]];
[[25;37];[28]];
[[25;9;28]];
[[25;9;37];[28]];
[[25];[29]];
[[25;37];[29]];
[[25;9];[29]];
[[25;9;37];[29]];
[[25];[30]];
[[25;37];[30]];
[[25;9];[30]];
[[25;9;37];[30]];
[[25;31]];
[[25;37];[31]];
[[25;9;31]];
[[25;9;37];[31]];
[[25];[32]];
[[25;37];[32]];
[[25;9];[32]];
[[25;9;37];[32]];
[[25;33]];
[[25;37];[33]];
[[25;9;33]];
[[25;9;37];[33]];
[[25;37]];
[[25;37;37]];
[[25;9;37]];
[[25;9;37;37]];
[[25;38]];
[[25;37;38]];
[[25;9;38]];
[[25;9;37;38]];
[[25;39]];
[[25;37;39]];
[[25;9;39]];
[[25;9;37;39]];
[[25;41]];
[[25;37;41]];
[[25;9;41]];
[[25;9;37;41]];
[[25];[34]];
[[25;37];[34]];
[[25;9];[34]];
[[25;9;37];[34]];
[[25];[12]];
[[25;37];[12]];
[[25;9];[12]];
[[25;9;37];[12]];
[[25];[13]];
[[25;37];[13]];
[[25;9];[13]];
[[25;9;37];[13]];
[[25;9]];
[[25;37];[9]];
[[25;9;9]];
[[25;9;37];[9]];
[[25;42]];
[[25;37];[42]];
[[25;9;42]];
[[25;9;37];[42]];
[[25];[0]];
[[25;37];[0]];
[[25;9];[0]];
[[25;9;37];[0]];
[[25];[40]];
[[25;37];[40]];
[[25;9];[40]];
[[25;9;37];[40]];
[[25];[35]];
[[25;37];[35]];
[[25;9];[35]];
[[25;9;37];[35]];
[[25;7]];
[[25;37];[7]];
[[25;9;7]];
[[25;9;37];[7]];
[[26];[1]];
[[26];[37];[1]];
[[26];[9;1]];
[[26];[9;37];[1]];
[[26];[2]];
[[26];[37];[2]];
[[26];[9];[2]];
[[26];[9;37];[2]];
[[26];[3]];
[[26];[37];[3]];
[[26];[9;3]];
[[26];[9;37];[3]];
[[26];[4]];
[[26];[37];[4]];
[[26];[9];[4]];
[[26];[9;37];[4]];
[[26];[5]];
[[26];[37;5]];
[[26];[9;5]];
[[26];[9;37;5]];
[[26];[6]];
[[26];[37];[6]];
[[26];[9];[6]];
[[26];[9;37];[6]];
[[26];[8]];
[[26];[37;8]];
[[26];[9;8]];
[[26];[9;37;8]];
[[26];[10]];
[[26];[37;10]];
[[26];[9;10]];
[[26];[9;37;10]];
[[26];[11]];
[[26];[37;11]];
[[26];[9;11]];
[[26];[9;37;11]];
[[26];[14]];
[[26];[37;14]];
[[26];[9;14]];
[[26];[9;37;14]];
[[26];[15]];
[[26];[37];[15]];
[[26];[9;15]];
[[26];[9;37];[15]];
[[26];[16]];
[[26];[37];[16]];
[[26];[9];[16]];
[[26];[9;37];[16]];
[[26];[17]];
[[26];[37];[17]];
[[26];[9];[17]];
[[26];[9;37];[17]];
[[26];[18]];
[[26];[37];[18]];
[[26];[9;18]];
[[26];[9;37];[18]];
[[26];[19]];
[[26];[37];[19]];
[[26];[9;19]];
[[26];[9;37];[19]];
[[26];[20]];
[[26];[37];[20]];
[[26];[9];[20]];
[[26];[9;37];[20]];
[[26];[21]];
[[26];[37];[21]];
[[26];[9;21]];
[[26];[9;37];[21]];
[[26];[22]];
[[26];[37;22]];
[[26];[9;22]];
[[26];[9;37;22]];
[[26];[23]];
[[26];[37];[23]];
[[26];[9];[23]];
[[26];[9;37];[23]];
[[26];[24]];
[[26];[37];[24]];
[[26];[9];[24]];
[[26];[9;37];[24]];
[[26];[25]];
[[26];[37];[25]];
[[26];[9];[25]];
[[26];[9;37];[25]];
[[26];[26]];
[[26];[37;26]];
[[26];[9;26]];
[[26];[9;37;26]];
[[26];[27]];
[[26];[37;27]];
[[26];[9;27]];
[[26];[9;37;27]];
[[26];[28]];
[[26];[37];[28]];
[[26];[9;28]];
[[26];[9;37];[28]];
[[26];[29]];
[[26];[37];[29]];
[[26];[9;29]];
[[26];[9;37];[29]];
[[26];[30]];
[[26];[37];[30]];
[[26];[9;30]];
[[26];[9;37];[30]];
[[26];[31]];
[[26];[37];[31]];
[[26];[9;31]];
[[26];[9;37];[31]];
[[26];[32]];
[[26];[37];[32]];
[[26];[9;32]];
[[26];[9;37];[32]];
[[26];[33]];
[[26];[37];[33]];
[[26];[9;33]];
[[26];[9;37];[33]];
[[26];[37]];
[[26];[37;37]];
[[26];[9;37]];
[[26];[9;37;37]];
[[26];[38]];
[[26];[37;38]];
[[26];[9;38]];
[[26];[9;37;38]];
[[26];[39]];
[[26];[37;39]];
[[26];[9;39]];
[[26];[9;37;39]];
[[26];[41]];
[[26];[37;41]];
[[26];[9;41]];
[[26];[9;37;41]];
[[26];[34]];
[[26];[37];[34]];
[[26];[9];[34]];
[[26];[9;37];[34]];
[[26];[12]];
[[26];[37];[12]];
[[26];[9];[12]];
[[26];[9;37];[12]];
[[26];[13]];
[[26];[37];[13]];
[[26];[9];[13]];
[[26];[9;37];[13]];
[[26];[9]];
[[26];[37];[9]];
[[26];[9;9]];
[[26];[9;37];[9]];
[[26];[42]];
[[26];[37];[42]];
[[26];[9;42]];
[[26];[9;37];[42]];
[[26];[0]];
[[26];[37];[0]];
[[26];[9;0]];
[[26];[9;37];[0]];
[[26];[40]];
[[26];[37];[40]];
[[26];[9;40]];
[[26];[9;37];[40]];
[[26];[35]];
[[26];[37];[35]];
[[26];[9;35]];
[[26];[9;37];[35]];
[[26];[7]];
[[26];[37];[7]];
[[26];[9;7]];
[[26];[9;37];[7]];
[[27];[1]];
[[27];[37];[1]];
[[27];[9;1]];
[[27];[9;37];[1]];
[[27];[2]];
[[27];[37];[2]];
[[27];[9];[2]];
[[27];[9;37];[2]];
[[27];[3]];
[[27];[37];[3]];
[[27];[9;3]];
[[27];[9;37];[3]];
[[27];[4]];
[[27];[37];[4]];
[[27];[9];[4]];
[[27];[9;37];[4]];
[[27];[5]];
[[27];[37;5]];
[[27];[9;5]];
[[27];[9;37;5]];
[[27];[6]];
[[27];[37];[6]];
[[27];[9];[6]];
[[27];[9;37];[6]];
[[27];[8]];
[[27];[37;8]];
[[27];[9;8]];
[[27];[9;37;8]];
[[27];[10]];
[[27];[37;10]];
[[27];[9;10]];
[[27];[9;37;10]];
[[27];[11]];
[[27];[37;11]];
[[27];[9;11]];
[[27];[9;37;11]];
[[27];[14]];
[[27];[37;14]];
[[27];[9;14]];
[[27];[9;37;14]];
[[27];[15]];
[[27];[37];[15]];
[[27];[9;15]];
[[27];[9;37];[15]];
[[27];[16]];
[[27];[37];[16]];
[[27];[9];[16]];
[[27];[9;37];[16]];
[[27];[17]];
[[27];[37];[17]];
[[27];[9];[17]];
[[27];[9;37];[17]];
[[27];[18]];
[[27];[37];[18]];
[[27];[9;18]];
[[27];[9;37];[18]];
[[27];[19]];
[[27];[37];[19]];
[[27];[9;19]];
[[27];[9;37];[19]];
[[27];[20]];
[[27];[37];[20]];
[[27];[9];[20]];
[[27];[9;37];[20]];
[[27];[21]];
[[27];[37];[21]];
[[27];[9;21]];
[[27];[9;37];[21]];
[[27];[22]];
[[27];[37;22]];
[[27];[9;22]];
[[27];[9;37;22]];
[[27];[23]];
[[27];[37];[23]];
[[27];[9];[23]];
[[27];[9;37];[23]];
[[27];[24]];
[[27];[37];[24]];
[[27];[9];[24]];
[[27];[9;37];[24]];
[[27];[25]];
[[27];[37];[25]];
[[27];[9];[25]];
[[27];[9;37];[25]];
[[27];[26]];
[[27];[37;26]];
[[27];[9;26]];
[[27];[9;37;26]];
[[27];[27]];
[[27];[37;27]];
[[27];[9;27]];
[[27];[9;37;27]];
[[27];[28]];
[[27];[37];[28]];
[[27];[9;28]];
[[27];[9;37];[28]];
[[27];[29]];
[[27];[37];[29]];
[[27];[9;29]];
[[27];[9;37];[29]];
[[27];[30]];
[[27];[37];[30]];
[[27];[9;30]];
[[27];[9;37];[30]];
[[27];[31]];
[[27];[37];[31]];
[[27];[9;31]];
[[27];[9;37];[31]];
[[27];[32]];
[[27];[37];[32]];
[[27];[9;32]];
[[27];[9;37];[32]];
[[27];[33]];
[[27];[37];[33]];
[[27];[9;33]];
[[27];[9;37];[33]];
[[27];[37]];
[[27];[37;37]];
[[27];[9;37]];
[[27];[9;37;37]];
[[27];[38]];
[[27];[37;38]];
[[27];[9;38]];
[[27];[9;37;38]];
[[27];[39]];
[[27];[37;39]];
[[27];[9;39]];
[[27];[9;37;39]];
[[27];[41]];
[[27];[37;41]];
[[27];[9;41]];
[[27];[9;37;41]];
[[27];[34]];
[[27];[37];[34]];
[[27];[9];[34]];
[[27];[9;37];[34]];
[[27];[12]];
[[27];[37];[12]];
[[27];[9];[12]];
[[27];[9;37];[12]];
[[27];[13]];
[[27];[37];[13]];
[[27];[9];[13]];
[[27];[9;37];[13]];
[[27];[9]];
[[27];[37];[9]];
[[27];[9;9]];
[[27];[9;37];[9]];
[[27];[42]];
[[27];[37];[42]];
[[27];[9;42]];
[[27];[9;37];[42]];
[[27];[0]];
[[27];[37];[0]];
[[27];[9;0]];
[[27];[9;37];[0]];
[[27];[40]];
[[27];[37];[40]];
[[27];[9;40]];
[[27];[9;37];[40]];
[[27];[35]];
[[27];[37];[35]];
[[27];[9;35]];
[[27];[9;37];[35]];
[[27];[7]];
[[27];[37];[7]];
[[27];[9;7]];
[[27];[9;37];[7]];
[[28];[1]];
[[28;37];[1]];
[[28;9];[1]];
[[28;9;37];[1]];
[[28];[2]];
[[28;37];[2]];
[[28;9];[2]];
[[28;9;37];[2]];
[[28;3]];
[[28;37];[3]];
[[28;9;3]];
[[28;9;37];[3]];
[[28];[4]];
[[28;37];[4]];
[[28;9];[4]];
[[28;9;37];[4]];
[[28;5]];
[[28;37;5]];
[[28;9;5]];
[[28;9;37;5]];
[[28];[6]];
[[28;37];[6]];
[[28;9];[6]];
[[28;9;37];[6]];
[[28;8]];
[[28;37;8]];
[[28;9;8]];
[[28;9;37;8]];
[[28;10]];
[[28;37;10]];
[[28;9;10]];
[[28;9;37;10]];
[[28;11]];
[[28;37;11]];
[[28;9;11]];
[[28;9;37;11]];
[[28;14]];
[[28;37;14]];
[[28;9;14]];
[[28;9;37;14]];
[[28;15]];
[[28;37];[15]];
[[28;9;15]];
[[28;9;37];[15]];
[[28];[16]];
[[28;37];[16]];
[[28;9];[16]];
[[28;9;37];[16]];
[[28];[17]];
[[28;37];[17]];
[[28;9];[17]];
[[28;9;37];[17]];
[[28];[18]];
[[28;37];[18]];
[[28;9];[18]];
[[28;9;37];[18]];
[[28;19]];
[[28;37];[19]];
[[28;9;19]];
[[28;9;37];[19]];
[[28];[20]];
[[28;37];[20]];
[[28;9];[20]];
[[28;9;37];[20]];
[[28];[21]];
[[28;37];[21]];
[[28;9];[21]];
[[28;9;37];[21]];
[[28;22]];
[[28;37;22]];
[[28;9;22]];
[[28;9;37;22]];
[[28];[23]];
[[28;37];[23]];
[[28;9];[23]];
[[28;9;37];[23]];
[[28];[24]];
[[28;37];[24]];
[[28;9];[24]];
[[28;9;37];[24]];
[[28];[25]];
[[28;37];[25]];
[[28;9];[25]];
[[28;9;37];[25]];
[[28;26]];
[[28;37;26]];
[[28;9;26]];
[[28;9;37;26]];
[[28;27]];
[[28;37;27]];
[[28;9;27]];
[[28;9;37;27]];
[[28;28]];
[[28;37];[28]];
[[28;9;28]];
[[28;9;37];[28]];
[[28];[29]];
[[28;37];[29]];
[[28;9];[29]];
[[28;9;37];[29]];
[[28];[30]];
[[28;37];[30]];
[[28;9];[30]];
[[28;9;37];[30]];
[[28];[31]];
[[28;37];[31]];
[[28;9];[31]];
[[28;9;37];[31]];
[[28];[32]];
[[28;37];[32]];
[[28;9];[32]];
[[28;9;37];[32]];
[[28;33]];
[[28;37];[33]];
[[28;9;33]];
[[28;9;37];[33]];
[[28;37]];
[[28;37;37]];
[[28;9;37]];
[[28;9;37;37]];
[[28;38]];
[[28;37;38]];
[[28;9;38]];
[[28;9;37;38]];
[[28;39]];
[[28;37;39]];
[[28;9;39]];
[[28;9;37;39]];
[[28;41]];
[[28;37;41]];
[[28;9;41]];
[[28;9;37;41]];
[[28];[34]];
[[28;37];[34]];
[[28;9];[34]];
[[28;9;37];[34]];
[[28];[12]];
[[28;37];[12]];
[[28;9];[12]];
[[28;9;37];[12]];
[[28];[13]];
[[28;37];[13]];
[[28;9];[13]];
[[28;9;37];[13]];
[[28;9]];
[[28;37];[9]];
[[28;9;9]];
[[28;9;37];[9]];
[[28;42]];
[[28;37];[42]];
[[28;9;42]];
[[28;9;37];[42]];
[[28];[0]];
[[28;37];[0]];
[[28;9];[0]];
[[28;9;37];[0]];
[[28];[40]];
[[28;37];[40]];
[[28;9];[40]];
[[28;9;37];[40]];
[[28];[35]];
[[28;37];[35]];
[[28;9];[35]];
[[28;9;37];[35]];
[[28;7]];
[[28;37];[7]];
[[28;9;7]];
[[28;9;37];[7]];
[[29;1]];
[[29;37];[1]];
[[29;9;1]];
[[29;9;37];[1]];
[[29];[2]];
[[29;37];[2]];
[[29;9];[2]];
[[29;9;37];[2]];
[[29;3]];
[[29;37];[3]];
[[29;9;3]];
[[29;9;37];[3]];
[[29];[4]];
[[29;37];[4]];
[[29;9];[4]];
[[29;9;37];[4]];
[[29;5]];
[[29;37;5]];
[[29;9;5]];
[[29;9;37;5]];
[[29];[6]];
[[29;37];[6]];
[[29;9];[6]];
[[29;9;37];[6]];
[[29;8]];
[[29;37;8]];
[[29;9;8]];
[[29;9;37;8]];
[[29;10]];
[[29;37;10]];
[[29;9;10]];
[[29;9;37;10]];
[[29;11]];
[[29;37;11]];
[[29;9;11]];
[[29;9;37;11]];
[[29;14]];
[[29;37;14]];
[[29;9;14]];
[[29;9;37;14]];
[[29;15]];
[[29;37];[15]];
[[29;9;15]];
[[29;9;37];[15]];
[[29];[16]];
[[29;37];[16]];
[[29;9];[16]];
[[29;9;37];[16]];
[[29];[17]];
[[29;37];[17]];
[[29;9];[17]];
[[29;9;37];[17]];
[[29;18]];
[[29;37];[18]];
[[29;9;18]];
[[29;9;37];[18]];
[[29;19]];
[[29;37];[19]];
[[29;9;19]];
[[29;9;37];[19]];
[[29];[20]];
[[29;37];[20]];
[[29;9];[20]];
[[29;9;37];[20]];
[[29;21]];
[[29;37];[21]];
[[29;9;21]];
[[29;9;37];[21]];
[[29;22]];
[[29;37;22]];
[[29;9;22]];
[[29;9;37;22]];
[[29];[23]];
[[29;37];[23]];
[[29;9];[23]];
[[29;9;37];[23]];
[[29];[24]];
[[29;37];[24]];
[[29;9];[24]];
[[29;9;37];[24]];
[[29];[25]];
[[29;37];[25]];
[[29;9];[25]];
[[29;9;37];[25]];
[[29;26]];
[[29;37;26]];
[[29;9;26]];
[[29;9;37;26]];
[[29;27]];
[[29;37;27]];
[[29;9;27]];
[[29;9;37;27]];
[[29;28]];
[[29;37];[28]];
[[29;9;28]];
[[29;9;37];[28]];
[[29;29]];
[[29;37];[29]];
[[29;9;29]];
[[29;9;37];[29]];
[[29;30]];
[[29;37];[30]];
[[29;9;30]];
[[29;9;37];[30]];
[[29;31]];
[[29;37];[31]];
[[29;9;31]];
[[29;9;37];[31]];
[[29;32]];
[[29;37];[32]];
[[29;9;32]];
[[29;9;37];[32]];
[[29;33]];
[[29;37];[33]];
[[29;9;33]];
[[29;9;37];[33]];
[[29;37]];
[[29;37;37]];
[[29;9;37]];
[[29;9;37;37]];
[[29;38]];
[[29;37;38]];
[[29;9;38]];
[[29;9;37;38]];
[[29;39]];
[[29;37;39]];
[[29;9;39]];
[[29;9;37;39]];
[[29;41]];
[[29;37;41]];
[[29;9;41]];
[[29;9;37;41]];
[[29];[34]];
[[29;37];[34]];
[[29;9];[34]];
[[29;9;37];[34]];
[[29];[12]];
[[29;37];[12]];
[[29;9];[12]];
[[29;9;37];[12]];
[[29];[13]];
[[29;37];[13]];
[[29;9];[13]];
[[29;9;37];[13]];
[[29;9]];
[[29;37];[9]];
[[29;9;9]];
[[29;9;37];[9]];
[[29;42]];
[[29;37];[42]];
[[29;9;42]];
[[29;9;37];[42]];
[[29;0]];
[[29;37];[0]];
[[29;9;0]];
[[29;9;37];[0]];
[[29;40]];
[[29;37];[40]];
[[29;9;40]];
[[29;9;37];[40]];
[[29;35]];
[[29;37];[35]];
[[29;9;35]];
[[29;9;37];[35]];
[[29;7]];
[[29;37];[7]];
[[29;9;7]];
[[29;9;37];[7]];
[[30;1]];
[[30;37;1]];
[[30;9;1]];
[[30;9;37;1]];
[[30;2]];
[[30;37;2]];
[[30;9;2]];
[[30;9;37;2]];
[[30;3]];
[[30;37;3]];
[[30;9;3]];
[[30;9;37;3]];
[[30;4]];
[[30;37;4]];
[[30;9;4]];
[[30;9;37;4]];
[[30;5]];
[[30;37;5]];
[[30;9;5]];
[[30;9;37;5]];
[[30;6]];
[[30;37;6]];
[[30;9;6]];
[[30;9;37;6]];
[[30;8]];
[[30;37;8]];
[[30;9;8]];
[[30;9;37;8]];
[[30;10]];
[[30;37;10]];
[[30;9;10]];
[[30;9;37;10]];
[[30;11]];
[[30;37;11]];
[[30;9;11]];
[[30;9;37;11]];
[[30;14]];
[[30;37;14]];
[[30;9;14]];
[[30;9;37;14]];
[[30;15]];
[[30;37;15]];
[[30;9;15]];
[[30;9;37;15]];
[[30;16]];
[[30;37;16]];
[[30;9;16]];
[[30;9;37;16]];
[[30;17]];
[[30;37;17]];
[[30;9;17]];
[[30;9;37;17]];
[[30;18]];
[[30;37;18]];
[[30;9;18]];
[[30;9;37;18]];
[[30;19]];
[[30;37;19]];
[[30;9;19]];
[[30;9;37;19]];
[[30;20]];
[[30;37;20]];
[[30;9;20]];
[[30;9;37;20]];
[[30;21]];
[[30;37;21]];
[[30;9;21]];
[[30;9;37;21]];
[[30;22]];
[[30;37;22]];
[[30;9;22]];
[[30;9;37;22]];
[[30;23]];
[[30;37;23]];
[[30;9;23]];
[[30;9;37;23]];
[[30;24]];
[[30;37;24]];
[[30;9;24]];
[[30;9;37;24]];
[[30;25]];
[[30;37;25]];
[[30;9;25]];
[[30;9;37;25]];
[[30;26]];
[[30;37;26]];
[[30;9;26]];
[[30;9;37;26]];
[[30;27]];
[[30;37;27]];
[[30;9;27]];
[[30;9;37;27]];
[[30;28]];
[[30;37;28]];
[[30;9;28]];
[[30;9;37;28]];
[[30;29]];
[[30;37;29]];
[[30;9;29]];
[[30;9;37;29]];
[[30;30]];
[[30;37;30]];
[[30;9;30]];
[[30;9;37;30]];
[[30;31]];
[[30;37;31]];
[[30;9;31]];
[[30;9;37;31]];
[[30;32]];
[[30;37;32]];
[[30;9;32]];
[[30;9;37;32]];
[[30;33]];
[[30;37;33]];
[[30;9;33]];
[[30;9;37;33]];
[[30;37]];
[[30;37;37]];
[[30;9;37]];
[[30;9;37;37]];
[[30;38]];
[[30;37;38]];
[[30;9;38]];
[[30;9;37;38]];
[[30;39]];
[[30;37;39]];
[[30;9;39]];
[[30;9;37;39]];
[[30;41]];
[[30;37;41]];
[[30;9;41]];
[[30;9;37;41]];
[[30;34]];
[[30;37;34]];
[[30;9;34]];
[[30;9;37;34]];
[[30;12]];
[[30;37;12]];
[[30;9;12]];
[[30;9;37;12]];
[[30;13]];
[[30;37;13]];
[[30;9;13]];
[[30;9;37;13]];
[[30;9]];
[[30;37;9]];
[[30;9;9]];
[[30;9;37;9]];
[[30;42]];
[[30;37;42]];
[[30;9;42]];
[[30;9;37;42]];
[[30;0]];
[[30;37;0]];
[[30;9;0]];
[[30;9;37;0]];
[[30;40]];
[[30;37;40]];
[[30;9;40]];
[[30;9;37;40]];
[[30;35]];
[[30;37;35]];
[[30;9;35]];
[[30;9;37;35]];
[[30;7]];
[[30;37;7]];
[[30;9;7]];
[[30;9;37;7]];
[[31;1]];
[[31;37];[1]];
[[31;9;1]];
[[31;9;37];[1]];
[[31];[2]];
[[31;37];[2]];
[[31;9];[2]];
[[31;9;37];[2]];
[[31;3]];
[[31;37];[3]];
[[31;9;3]];
[[31;9;37];[3]];
[[31];[4]];
[[31;37];[4]];
[[31;9];[4]];
[[31;9;37];[4]];
[[31;5]];
[[31;37;5]];
[[31;9;5]];
[[31;9;37;5]];
[[31];[6]];
[[31;37];[6]];
[[31;9];[6]];
[[31;9;37];[6]];
[[31;8]];
[[31;37;8]];
[[31;9;8]];
[[31;9;37;8]];
[[31;10]];
[[31;37;10]];
[[31;9;10]];
[[31;9;37;10]];
[[31;11]];
[[31;37;11]];
[[31;9;11]];
[[31;9;37;11]];
[[31;14]];
[[31;37;14]];
[[31;9;14]];
[[31;9;37;14]];
[[31;15]];
[[31;37];[15]];
[[31;9;15]];
[[31;9;37];[15]];
[[31];[16]];
[[31;37];[16]];
[[31;9];[16]];
[[31;9;37];[16]];
[[31];[17]];
[[31;37];[17]];
[[31;9];[17]];
[[31;9;37];[17]];
[[31;18]];
[[31;37];[18]];
[[31;9;18]];
[[31;9;37];[18]];
[[31;19]];
[[31;37];[19]];
[[31;9;19]];
[[31;9;37];[19]];
[[31];[20]];
[[31;37];[20]];
[[31;9];[20]];
[[31;9;37];[20]];
[[31];[21]];
[[31;37];[21]];
[[31;9];[21]];
[[31;9;37];[21]];
[[31;22]];
[[31;37;22]];
[[31;9;22]];
[[31;9;37;22]];
[[31];[23]];
[[31;37];[23]];
[[31;9];[23]];
[[31;9;37];[23]];
[[31];[24]];
[[31;37];[24]];
[[31;9];[24]];
[[31;9;37];[24]];
[[31];[25]];
[[31;37];[25]];
[[31;9];[25]];
[[31;9;37];[25]];
[[31;26]];
[[31;37;26]];
[[31;9;26]];
[[31;9;37;26]];
[[31;27]];
[[31;37;27]];
[[31;9;27]];
[[31;9;37;27]];
[[31;28]];
[[31;37];[28]];
[[31;9;28]];
[[31;9;37];[28]];
[[31;29]];
[[31;37];[29]];
[[31;9;29]];
[[31;9;37];[29]];
[[31;37];[30]];
[[31;9;37];[30]];
[[31];[31]];
[[31;37];[31]];
[[31;9];[31]];
[[31;9;37];[31]];
[[31];[32]];
[[31;37];[32]];
[[31;9];[32]];
[[31;9;37];[32]];
[[31;33]];
[[31;37];[33]];
[[31;9;33]];
[[31;9;37];[33]];
[[31;37]];
[[31;37;37]];
[[31;9;37]];
[[31;9;37;37]];
[[31;38]];
[[31;37;38]];
[[31;9;38]];
[[31;9;37;38]];
[[31;39]];
[[31;37;39]];
[[31;9;39]];
[[31;9;37;39]];
[[31;41]];
[[31;37;41]];
[[31;9;41]];
[[31;9;37;41]];
[[31];[34]];
[[31;37];[34]];
[[31;9];[34]];
[[31;9;37];[34]];
[[31];[12]];
[[31;37];[12]];
[[31;9];[12]];
[[31;9;37];[12]];
[[31];[13]];
[[31;37];[13]];
[[31;9];[13]];
[[31;9;37];[13]];
[[31;9]];
[[31;37];[9]];
[[31;9;9]];
[[31;9;37];[9]];
[[31;42]];
[[31;37];[42]];
[[31;9;42]];
[[31;9;37];[42]];
[[31;0]];
[[31;37];[0]];
[[31;9;0]];
[[31;9;37];[0]];
[[31;40]];
[[31;37];[40]];
[[31;9;40]];
[[31;9;37];[40]];
[[31;35]];
[[31;37];[35]];
[[31;9;35]];
[[31;9;37];[35]];
[[31;7]];
[[31;37];[7]];
[[31;9;7]];
[[31;9;37];[7]];
[[32;1]];
[[32;37];[1]];
[[32;9;1]];
[[32;9;37];[1]];
[[32];[2]];
[[32;37];[2]];
[[32;9];[2]];
[[32;9;37];[2]];
[[32;3]];
[[32;37];[3]];
[[32;9;3]];
[[32;9;37];[3]];
[[32];[4]];
[[32;37];[4]];
[[32;9];[4]];
[[32;9;37];[4]];
[[32;5]];
[[32;37;5]];
[[32;9;5]];
[[32;9;37;5]];
[[32];[6]];
[[32;37];[6]];
[[32;9];[6]];
[[32;9;37];[6]];
[[32;8]];
[[32;37;8]];
[[32;9;8]];
[[32;9;37;8]];
[[32;10]];
[[32;37;10]];
[[32;9;10]];
[[32;9;37;10]];
[[32;11]];
[[32;37;11]];
[[32;9;11]];
[[32;9;37;11]];
[[32;14]];
[[32;37;14]];
[[32;9;14]];
[[32;9;37;14]];
[[32;15]];
[[32;37];[15]];
[[32;9;15]];
[[32;9;37];[15]];
[[32;16]];
[[32;37];[16]];
[[32;9;16]];
[[32;9;37];[16]];
[[32;17]];
[[32;37];[17]];
[[32;9;17]];
[[32;9;37];[17]];
[[32;18]];
[[32;37];[18]];
[[32;9;18]];
[[32;9;37];[18]];
[[32;19]];
[[32;37];[19]];
[[32;9;19]];
[[32;9;37];[19]];
[[32;20]];
[[32;37];[20]];
[[32;9;20]];
[[32;9;37];[20]];
[[32];[21]];
[[32;37];[21]];
[[32;9];[21]];
[[32;9;37];[21]];
[[32;22]];
[[32;37;22]];
[[32;9;22]];
[[32;9;37;22]];
[[32;23]];
[[32;37];[23]];
[[32;9;23]];
[[32;9;37];[23]];
[[32;24]];
[[32;37];[24]];
[[32;9;24]];
[[32;9;37];[24]];
[[32;25]];
[[32;37];[25]];
[[32;9;25]];
[[32;9;37];[25]];
[[32;26]];
[[32;37;26]];
[[32;9;26]];
[[32;9;37;26]];
[[32;27]];
[[32;37;27]];
[[32;9;27]];
[[32;9;37;27]];
[[32;28]];
[[32;37];[28]];
[[32;9;28]];
[[32;9;37];[28]];
[[32;29]];
[[32;37];[29]];
[[32;9;29]];
[[32;9;37];[29]];
[[32;37];[30]];
[[32;9;37];[30]];
[[32];[31]];
[[32;37];[31]];
[[32;9];[31]];
[[32;9;37];[31]];
[[32];[32]];
[[32;37];[32]];
[[32;9];[32]];
[[32;9;37];[32]];
[[32;33]];
[[32;37];[33]];
[[32;9;33]];
[[32;9;37];[33]];
[[32;37]];
[[32;37;37]];
[[32;9;37]];
[[32;9;37;37]];
[[32;38]];
[[32;37;38]];
[[32;9;38]];
[[32;9;37;38]];
[[32;39]];
[[32;37;39]];
[[32;9;39]];
[[32;9;37;39]];
[[32;41]];
[[32;37;41]];
[[32;9;41]];
[[32;9;37;41]];
[[32];[34]];
[[32;37];[34]];
[[32;9];[34]];
[[32;9;37];[34]];
[[32;12]];
[[32;37];[12]];
[[32;9;12]];
[[32;9;37];[12]];
[[32;13]];
[[32;37];[13]];
[[32;9;13]];
[[32;9;37];[13]];
[[32;9]];
[[32;37];[9]];
[[32;9;9]];
[[32;9;37];[9]];
[[32;42]];
[[32;37];[42]];
[[32;9;42]];
[[32;9;37];[42]];
[[32;0]];
[[32;37];[0]];
[[32;9;0]];
[[32;9;37];[0]];
[[32;40]];
[[32;37];[40]];
[[32;9;40]];
[[32;9;37];[40]];
[[32;35]];
[[32;37];[35]];
[[32;9;35]];
[[32;9;37];[35]];
[[32;7]];
[[32;37];[7]];
[[32;9;7]];
[[32;9;37];[7]];
[[33;1]];
[[33;37];[1]];
[[33;9;1]];
[[33;9;37];[1]];
[[33;2]];
[[33;37];[2]];
[[33;9;2]];
[[33;9;37];[2]];
[[33;3]];
[[33;37];[3]];
[[33;9;3]];
[[33;9;37];[3]];
[[33;4]];
[[33;37];[4]];
[[33;9;4]];
[[33;9;37];[4]];
[[33;5]];
[[33;37;5]];
[[33;9;5]];
[[33;9;37;5]];
[[33;6]];
[[33;37];[6]];
[[33;9;6]];
[[33;9;37];[6]];
[[33;8]];
[[33;37;8]];
[[33;9;8]];
[[33;9;37;8]];
[[33;10]];
[[33;37;10]];
[[33;9;10]];
[[33;9;37;10]];
[[33;11]];
[[33;37;11]];
[[33;9;11]];
[[33;9;37;11]];
[[33;14]];
[[33;37;14]];
[[33;9;14]];
[[33;9;37;14]];
[[33;15]];
[[33;37];[15]];
[[33;9;15]];
[[33;9;37];[15]];
[[33;16]];
[[33;37];[16]];
[[33;9;16]];
[[33;9;37];[16]];
[[33;17]];
[[33;37];[17]];
[[33;9;17]];
[[33;9;37];[17]];
[[33;18]];
[[33;37];[18]];
[[33;9;18]];
[[33;9;37];[18]];
[[33;19]];
[[33;37];[19]];
[[33;9;19]];
[[33;9;37];[19]];
[[33;20]];
[[33;37];[20]];
[[33;9;20]];
[[33;9;37];[20]];
[[33;21]];
[[33;37];[21]];
[[33;9;21]];
[[33;9;37];[21]];
[[33;22]];
[[33;37;22]];
[[33;9;22]];
[[33;9;37;22]];
[[33;23]];
[[33;37];[23]];
[[33;9;23]];
[[33;9;37];[23]];
[[33;24]];
[[33;37];[24]];
[[33;9;24]];
[[33;9;37];[24]];
[[33;25]];
[[33;37];[25]];
[[33;9;25]];
[[33;9;37];[25]];
[[33;26]];
[[33;37;26]];
[[33;9;26]];
[[33;9;37;26]];
[[33;27]];
[[33;37;27]];
[[33;9;27]];
[[33;9;37;27]];
[[33;28]];
[[33;37];[28]];
[[33;9;28]];
[[33;9;37];[28]];
[[33;29]];
[[33;37];[29]];
[[33;9;29]];
[[33;9;37];[29]];
[[33;30]];
[[33;37;30]];
[[33;9;30]];
[[33;9;37;30]];
[[33;31]];
[[33;37];[31]];
[[33;9;31]];
[[33;9;37];[31]];
[[33;32]];
[[33;37];[32]];
[[33;9;32]];
[[33;9;37];[32]];
[[33;33]];
[[33;37];[33]];
[[33;9;33]];
[[33;9;37];[33]];
[[33;37]];
[[33;37;37]];
[[33;9;37]];
[[33;9;37;37]];
[[33;38]];
[[33;37;38]];
[[33;9;38]];
[[33;9;37;38]];
[[33;39]];
[[33;37;39]];
[[33;9;39]];
[[33;9;37;39]];
[[33;41]];
[[33;37;41]];
[[33;9;41]];
[[33;9;37;41]];
[[33;34]];
[[33;37];[34]];
[[33;9;34]];
[[33;9;37];[34]];
[[33;12]];
[[33;37];[12]];
[[33;9;12]];
[[33;9;37];[12]];
[[33;13]];
[[33;37];[13]];
[[33;9;13]];
[[33;9;37];[13]];
[[33;9]];
[[33;37];[9]];
[[33;9;9]];
[[33;9;37];[9]];
[[33;42]];
[[33;37];[42]];
[[33;9;42]];
[[33;9;37];[42]];
[[33;0]];
[[33;37];[0]];
[[33;9;0]];
[[33;9;37];[0]];
[[33;40]];
[[33;37];[40]];
[[33;9;40]];
[[33;9;37];[40]];
[[33;35]];
[[33;37];[35]];
[[33;9;35]];
[[33;9;37];[35]];
[[33;7]];
[[33;37];[7]];
[[33;9;7]];
[[33;9;37];[7]];
[[37];[1]];
[[37;37];[1]];
[[37];[9;1]];
[[37];[9;37];[1]];
[[37];[2]];
[[37;37];[2]];
[[37];[9];[2]];
[[37];[9;37];[2]];
[[37];[3]];
[[37;37];[3]];
[[37];[9;3]];
[[37];[9;37];[3]];
[[37];[4]];
[[37;37];[4]];
[[37];[9];[4]];
[[37];[9;37];[4]];
[[37;5]];
[[37;37;5]];
[[37];[9;5]];
[[37];[9;37;5]];
[[37];[6]];
[[37;37];[6]];
[[37];[9];[6]];
[[37];[9;37];[6]];
[[37;8]];
[[37;37;8]];
[[37];[9;8]];
[[37];[9;37;8]];
[[37;10]];
[[37;37;10]];
[[37];[9;10]];
[[37];[9;37;10]];
[[37;11]];
[[37;37;11]];
[[37];[9;11]];
[[37];[9;37;11]];
[[37;14]];
[[37;37;14]];
[[37];[9;14]];
[[37];[9;37;14]];
[[37];[15]];
[[37;37];[15]];
[[37];[9;15]];
[[37];[9;37];[15]];
[[37];[16]];
[[37;37];[16]];
[[37];[9];[16]];
[[37];[9;37];[16]];
[[37];[17]];
[[37;37];[17]];
[[37];[9];[17]];
[[37];[9;37];[17]];
[[37];[18]];
[[37;37];[18]];
[[37];[9;18]];
[[37];[9;37];[18]];
[[37];[19]];
[[37;37];[19]];
[[37];[9;19]];
[[37];[9;37];[19]];
[[37];[20]];
[[37;37];[20]];
[[37];[9];[20]];
[[37];[9;37];[20]];
[[37];[21]];
[[37;37];[21]];
[[37];[9;21]];
[[37];[9;37];[21]];
[[37;22]];
[[37;37;22]];
[[37];[9;22]];
[[37];[9;37;22]];
[[37];[23]];
[[37;37];[23]];
[[37];[9];[23]];
[[37];[9;37];[23]];
[[37];[24]];
[[37;37];[24]];
[[37];[9];[24]];
[[37];[9;37];[24]];
[[37];[25]];
[[37;37];[25]];
[[37];[9];[25]];
[[37];[9;37];[25]];
[[37;26]];
[[37;37;26]];
[[37];[9;26]];
[[37];[9;37;26]];
[[37;27]];
[[37;37;27]];
[[37];[9;27]];
[[37];[9;37;27]];
[[37];[28]];
[[37;37];[28]];
[[37];[9;28]];
[[37];[9;37];[28]];
[[37];[29]];
[[37;37];[29]];
[[37];[9;29]];
[[37];[9;37];[29]];
[[37];[30]];
[[37;37];[30]];
[[37];[9;30]];
[[37];[9;37];[30]];
[[37];[31]];
[[37;37];[31]];
[[37];[9;31]];
[[37];[9;37];[31]];
[[37];[32]];
[[37;37];[32]];
[[37];[9;32]];
[[37];[9;37];[32]];
[[37];[33]];
[[37;37];[33]];
[[37];[9;33]];
[[37];[9;37];[33]];
[[37;37]];
[[37;37;37]];
[[37];[9;37]];
[[37];[9;37;37]];
[[37;38]];
[[37;37;38]];
[[37];[9;38]];
[[37];[9;37;38]];
[[37;39]];
[[37;37;39]];
[[37];[9;39]];
[[37];[9;37;39]];
[[37;41]];
[[37;37;41]];
[[37];[9;41]];
[[37];[9;37;41]];
[[37];[34]];
[[37;37];[34]];
[[37];[9];[34]];
[[37];[9;37];[34]];
[[37];[12]];
[[37;37];[12]];
[[37];[9];[12]];
[[37];[9;37];[12]];
[[37];[13]];
[[37;37];[13]];
[[37];[9];[13]];
[[37];[9;37];[13]];
[[37];[9]];
[[37;37];[9]];
[[37];[9;9]];
[[37];[9;37];[9]];
[[37];[42]];
[[37;37];[42]];
[[37];[9;42]];
[[37];[9;37];[42]];
[[37];[0]];
[[37;37];[0]];
[[37];[9;0]];
[[37];[9;37];[0]];
[[37];[40]];
[[37;37];[40]];
[[37];[9;40]];
[[37];[9;37];[40]];
[[37];[35]];
[[37;37];[35]];
[[37];[9;35]];
[[37];[9;37];[35]];
[[37];[7]];
[[37;37];[7]];
[[37];[9;7]];
[[37];[9;37];[7]];
[[38];[1]];
[[38;37];[1]];
[[38;9];[1]];
[[38;9;37];[1]];
[[38];[2]];
[[38;37];[2]];
[[38;9];[2]];
[[38;9;37];[2]];
[[38;3]];
[[38;37];[3]];
[[38;9;3]];
[[38;9;37];[3]];
[[38];[4]];
[[38;37];[4]];
[[38;9];[4]];
[[38;9;37];[4]];
[[38;5]];
[[38;37;5]];
[[38;9;5]];
[[38;9;37;5]];
[[38];[6]];
[[38;37];[6]];
[[38;9];[6]];
[[38;9;37];[6]];
[[38;8]];
[[38;37;8]];
[[38;9;8]];
[[38;9;37;8]];
[[38;10]];
[[38;37;10]];
[[38;9;10]];
[[38;9;37;10]];
[[38;11]];
[[38;37;11]];
[[38;9;11]];
[[38;9;37;11]];
[[38;14]];
[[38;37;14]];
[[38;9;14]];
[[38;9;37;14]];
[[38;15]];
[[38;37];[15]];
[[38;9;15]];
[[38;9;37];[15]];
[[38];[16]];
[[38;37];[16]];
[[38;9];[16]];
[[38;9;37];[16]];
[[38];[17]];
[[38;37];[17]];
[[38;9];[17]];
[[38;9;37];[17]];
[[38;18]];
[[38;37];[18]];
[[38;9;18]];
[[38;9;37];[18]];
[[38;19]];
[[38;37];[19]];
[[38;9;19]];
[[38;9;37];[19]];
[[38];[20]];
[[38;37];[20]];
[[38;9];[20]];
[[38;9;37];[20]];
[[38];[21]];
[[38;37];[21]];
[[38;9];[21]];
[[38;9;37];[21]];
[[38;22]];
[[38;37;22]];
[[38;9;22]];
[[38;9;37;22]];
[[38];[23]];
[[38;37];[23]];
[[38;9];[23]];
[[38;9;37];[23]];
[[38];[24]];
[[38;37];[24]];
[[38;9];[24]];
[[38;9;37];[24]];
[[38];[25]];
[[38;37];[25]];
[[38;9];[25]];
[[38;9;37];[25]];
[[38;26]];
[[38;37;26]];
[[38;9;26]];
[[38;9;37;26]];
[[38;27]];
[[38;37;27]];
[[38;9;27]];
[[38;9;37;27]];
[[38;28]];
[[38;37];[28]];
[[38;9;28]];
[[38;9;37];[28]];
[[38;37];[29]];
[[38;9;37];[29]];
[[38];[30]];
[[38;37];[30]];
[[38;9];[30]];
[[38;9;37];[30]];
[[38];[31]];
[[38;37];[31]];
[[38;9];[31]];
[[38;9;37];[31]];
[[38];[32]];
[[38;37];[32]];
[[38;9];[32]];
[[38;9;37];[32]];
[[38;33]];
[[38;37];[33]];
[[38;9;33]];
[[38;9;37];[33]];
[[38;37]];
[[38;37;37]];
[[38;9;37]];
[[38;9;37;37]];
[[38;38]];
[[38;37;38]];
[[38;9;38]];
[[38;9;37;38]];
[[38;39]];
[[38;37;39]];
[[38;9;39]];
[[38;9;37;39]];
[[38;41]];
[[38;37;41]];
[[38;9;41]];
[[38;9;37;41]];
[[38];[34]];
[[38;37];[34]];
[[38;9];[34]];
[[38;9;37];[34]];
[[38];[12]];
[[38;37];[12]];
[[38;9];[12]];
[[38;9;37];[12]];
[[38];[13]];
[[38;37];[13]];
[[38;9];[13]];
[[38;9;37];[13]];
[[38;9]];
[[38;37];[9]];
[[38;9;9]];
[[38;9;37];[9]];
[[38;42]];
[[38;37];[42]];
[[38;9;42]];
[[38;9;37];[42]];
[[38];[0]];
[[38;37];[0]];
[[38;9];[0]];
[[38;9;37];[0]];
[[38];[40]];
[[38;37];[40]];
[[38;9];[40]];
[[38;9;37];[40]];
[[38];[35]];
[[38;37];[35]];
[[38;9];[35]];
[[38;9;37];[35]];
[[38;7]];
[[38;37];[7]];
[[38;9;7]];
[[38;9;37];[7]];
[[39;1]];
[[39;37];[1]];
[[39;9;1]];
[[39;9;37];[1]];
[[39;2]];
[[39;37];[2]];
[[39;9;2]];
[[39;9;37];[2]];
[[39;3]];
[[39;37];[3]];
[[39;9;3]];
[[39;9;37];[3]];
[[39;4]];
[[39;37];[4]];
[[39;9;4]];
[[39;9;37];[4]];
[[39;5]];
[[39;37;5]];
[[39;9;5]];
[[39;9;37;5]];
[[39;6]];
[[39;37];[6]];
[[39;9;6]];
[[39;9;37];[6]];
[[39;8]];
[[39;37;8]];
[[39;9;8]];
[[39;9;37;8]];
[[39;10]];
[[39;37;10]];
[[39;9;10]];
[[39;9;37;10]];
[[39;11]];
[[39;37;11]];
[[39;9;11]];
[[39;9;37;11]];
[[39;14]];
[[39;37;14]];
[[39;9;14]];
[[39;9;37;14]];
[[39;15]];
[[39;37];[15]];
[[39;9;15]];
[[39;9;37];[15]];
[[39;16]];
[[39;37];[16]];
[[39;9;16]];
[[39;9;37];[16]];
[[39;17]];
[[39;37];[17]];
[[39;9;17]];
[[39;9;37];[17]];
[[39;18]];
[[39;37];[18]];
[[39;9;18]];
[[39;9;37];[18]];
[[39;19]];
[[39;37];[19]];
[[39;9;19]];
[[39;9;37];[19]];
[[39;20]];
[[39;37];[20]];
[[39;9;20]];
[[39;9;37];[20]];
[[39;21]];
[[39;37];[21]];
[[39;9;21]];
[[39;9;37];[21]];
[[39;22]];
[[39;37;22]];
[[39;9;22]];
[[39;9;37;22]];
[[39;23]];
[[39;37];[23]];
[[39;9;23]];
[[39;9;37];[23]];
[[39;24]];
[[39;37];[24]];
[[39;9;24]];
[[39;9;37];[24]];
[[39;25]];
[[39;37];[25]];
[[39;9;25]];
[[39;9;37];[25]];
[[39;26]];
[[39;37;26]];
[[39;9;26]];
[[39;9;37;26]];
[[39;27]];
[[39;37;27]];
[[39;9;27]];
[[39;9;37;27]];
[[39;28]];
[[39;37];[28]];
[[39;9;28]];
[[39;9;37];[28]];
[[39;29]];
[[39;37];[29]];
[[39;9;29]];
[[39;9;37];[29]];
[[39;30]];
[[39;37];[30]];
[[39;9;30]];
[[39;9;37];[30]];
[[39;31]];
[[39;37];[31]];
[[39;9;31]];
[[39;9;37];[31]];
[[39;32]];
[[39;37];[32]];
[[39;9;32]];
[[39;9;37];[32]];
[[39;33]];
[[39;37];[33]];
[[39;9;33]];
[[39;9;37];[33]];
[[39;37]];
[[39;37;37]];
[[39;9;37]];
[[39;9;37;37]];
[[39;38]];
[[39;37;38]];
[[39;9;38]];
[[39;9;37;38]];
[[39;39]];
[[39;37;39]];
[[39;9;39]];
[[39;9;37;39]];
[[39;41]];
[[39;37;41]];
[[39;9;41]];
[[39;9;37;41]];
[[39;34]];
[[39;37];[34]];
[[39;9;34]];
[[39;9;37];[34]];
[[39;12]];
[[39;37];[12]];
[[39;9;12]];
[[39;9;37];[12]];
[[39;13]];
[[39;37];[13]];
[[39;9;13]];
[[39;9;37];[13]];
[[39;9]];
[[39;37];[9]];
[[39;9;9]];
[[39;9;37];[9]];
[[39;42]];
[[39;37];[42]];
[[39;9;42]];
[[39;9;37];[42]];
[[39;0]];
[[39;37];[0]];
[[39;9;0]];
[[39;9;37];[0]];
[[39;40]];
[[39;37];[40]];
[[39;9;40]];
[[39;9;37];[40]];
[[39;35]];
[[39;37];[35]];
[[39;9;35]];
[[39;9;37];[35]];
[[39;7]];
[[39;37];[7]];
[[39;9;7]];
[[39;9;37];[7]];
[[41];[1]];
[[41;37];[1]];
[[41];[9;1]];
[[41];[9;37];[1]];
[[41];[2]];
[[41;37];[2]];
[[41];[9];[2]];
[[41];[9;37];[2]];
[[41];[3]];
[[41;37];[3]];
[[41];[9;3]];
[[41];[9;37];[3]];
[[41];[4]];
[[41;37];[4]];
[[41];[9];[4]];
[[41];[9;37];[4]];
[[41;5]];
[[41;37;5]];
[[41];[9;5]];
[[41];[9;37;5]];
[[41];[6]];
[[41;37];[6]];
[[41];[9];[6]];
[[41];[9;37];[6]];
[[41];[8]];
[[41;37];[8]];
[[41];[9;8]];
[[41];[9;37;8]];
[[41];[10]];
[[41;37];[10]];
[[41];[9;10]];
[[41];[9;37;10]];
[[41;11]];
[[41;37;11]];
[[41];[9;11]];
[[41];[9;37;11]];
[[41];[14]];
[[41;37];[14]];
[[41];[9;14]];
[[41];[9;37;14]];
[[41];[15]];
[[41;37];[15]];
[[41];[9;15]];
[[41];[9;37];[15]];
[[41];[16]];
[[41;37];[16]];
[[41];[9];[16]];
[[41];[9;37];[16]];
[[41];[17]];
[[41;37];[17]];
[[41];[9];[17]];
[[41];[9;37];[17]];
[[41];[18]];
[[41;37];[18]];
[[41];[9;18]];
[[41];[9;37];[18]];
[[41];[19]];
[[41;37];[19]];
[[41];[9;19]];
[[41];[9;37];[19]];
[[41];[20]];
[[41;37];[20]];
[[41];[9];[20]];
[[41];[9;37];[20]];
[[41];[21]];
[[41;37];[21]];
[[41];[9;21]];
[[41];[9;37];[21]];
[[41];[22]];
[[41;37];[22]];
[[41];[9;22]];
[[41];[9;37;22]];
[[41];[23]];
[[41;37];[23]];
[[41];[9];[23]];
[[41];[9;37];[23]];
[[41];[24]];
[[41;37];[24]];
[[41];[9];[24]];
[[41];[9;37];[24]];
[[41];[25]];
[[41;37];[25]];
[[41];[9];[25]];
[[41];[9;37];[25]];
[[41;26]];
[[41;37;26]];
[[41];[9;26]];
[[41];[9;37;26]];
[[41;27]];
[[41;37;27]];
[[41];[9;27]];
[[41];[9;37;27]];
[[41];[28]];
[[41;37];[28]];
[[41];[9;28]];
[[41];[9;37];[28]];
[[41];[29]];
[[41;37];[29]];
[[41];[9;29]];
[[41];[9;37];[29]];
[[41];[30]];
[[41;37];[30]];
[[41];[9;30]];
[[41];[9;37];[30]];
[[41];[31]];
[[41;37];[31]];
[[41];[9;31]];
[[41];[9;37];[31]];
[[41];[32]];
[[41;37];[32]];
[[41];[9;32]];
[[41];[9;37];[32]];
[[41];[33]];
[[41;37];[33]];
[[41];[9;33]];
[[41];[9;37];[33]];
[[41;37]];
[[41;37;37]];
[[41];[9;37]];
[[41];[9;37;37]];
[[41];[38]];
[[41;37];[38]];
[[41];[9;38]];
[[41];[9;37;38]];
[[41];[39]];
[[41;37];[39]];
[[41];[9;39]];
[[41];[9;37;39]];
[[41;41]];
[[41;37;41]];
[[41];[9;41]];
[[41];[9;37;41]];
[[41];[34]];
[[41;37];[34]];
[[41];[9];[34]];
[[41];[9;37];[34]];
[[41];[12]];
[[41;37];[12]];
[[41];[9];[12]];
[[41];[9;37];[12]];
[[41];[13]];
[[41;37];[13]];
[[41];[9];[13]];
[[41];[9;37];[13]];
[[41];[9]];
[[41;37];[9]];
[[41];[9;9]];
[[41];[9;37];[9]];
[[41];[42]];
[[41;37];[42]];
[[41];[9;42]];
[[41];[9;37];[42]];
[[41];[0]];
[[41;37];[0]];
[[41];[9;0]];
[[41];[9;37];[0]];
[[41];[40]];
[[41;37];[40]];
[[41];[9;40]];
[[41];[9;37];[40]];
[[41];[35]];
[[41;37];[35]];
[[41];[9;35]];
[[41];[9;37];[35]];
[[41];[7]];
[[41;37];[7]];
[[41];[9;7]];
[[41];[9;37];[7]];
[[34];[1]];
[[34;37];[1]];
[[34;9];[1]];
[[34;9;37];[1]];
[[34];[2]];
[[34;37];[2]];
[[34;9];[2]];
[[34;9;37];[2]];
[[34;3]];
[[34;37];[3]];
[[34;9;3]];
[[34;9;37];[3]];
[[34];[4]];
[[34;37];[4]];
[[34;9];[4]];
[[34;9;37];[4]];
[[34;5]];
[[34;37;5]];
[[34;9;5]];
[[34;9;37;5]];
[[34];[6]];
[[34;37];[6]];
[[34;9];[6]];
[[34;9;37];[6]];
[[34;8]];
[[34;37;8]];
[[34;9;8]];
[[34;9;37;8]];
[[34;10]];
[[34;37;10]];
[[34;9;10]];
[[34;9;37;10]];
[[34;11]];
[[34;37;11]];
[[34;9;11]];
[[34;9;37;11]];
[[34;14]];
[[34;37;14]];
[[34;9;14]];
[[34;9;37;14]];
[[34;15]];
[[34;37];[15]];
[[34;9;15]];
[[34;9;37];[15]];
[[34];[16]];
[[34;37];[16]];
[[34;9];[16]];
[[34;9;37];[16]];
[[34];[17]];
[[34;37];[17]];
[[34;9];[17]];
[[34;9;37];[17]];
[[34];[18]];
[[34;37];[18]];
[[34;9];[18]];
[[34;9;37];[18]];
[[34;19]];
[[34;37];[19]];
[[34;9;19]];
[[34;9;37];[19]];
[[34];[20]];
[[34;37];[20]];
[[34;9];[20]];
[[34;9;37];[20]];
[[34];[21]];
[[34;37];[21]];
[[34;9];[21]];
[[34;9;37];[21]];
[[34;22]];
[[34;37;22]];
[[34;9;22]];
[[34;9;37;22]];
[[34];[23]];
[[34;37];[23]];
[[34;9];[23]];
[[34;9;37];[23]];
[[34];[24]];
[[34;37];[24]];
[[34;9];[24]];
[[34;9;37];[24]];
[[34];[25]];
[[34;37];[25]];
[[34;9];[25]];
[[34;9;37];[25]];
[[34;26]];
[[34;37;26]];
[[34;9;26]];
[[34;9;37;26]];
[[34;27]];
[[34;37;27]];
[[34;9;27]];
[[34;9;37;27]];
[[34;28]];
[[34;37];[28]];
[[34;9;28]];
[[34;9;37];[28]];
[[34];[29]];
[[34;37];[29]];
[[34;9];[29]];
[[34;9;37];[29]];
[[34];[30]];
[[34;37];[30]];
[[34;9];[30]];
[[34;9;37];[30]];
[[34];[31]];
[[34;37];[31]];
[[34;9];[31]];
[[34;9;37];[31]];
[[34];[32]];
[[34;37];[32]];
[[34;9];[32]];
[[34;9;37];[32]];
[[34;33]];
[[34;37];[33]];
[[34;9;33]];
[[34;9;37];[33]];
[[34;37]];
[[34;37;37]];
[[34;9;37]];
[[34;9;37;37]];
[[34;38]];
[[34;37;38]];
[[34;9;38]];
[[34;9;37;38]];
[[34;39]];
[[34;37;39]];
[[34;9;39]];
[[34;9;37;39]];
[[34;41]];
[[34;37;41]];
[[34;9;41]];
[[34;9;37;41]];
[[34;34]];
[[34;37];[34]];
[[34;9;34]];
[[34;9;37];[34]];
[[34];[12]];
[[34;37];[12]];
[[34;9];[12]];
[[34;9;37];[12]];
[[34];[13]];
[[34;37];[13]];
[[34;9];[13]];
[[34;9;37];[13]];
[[34;9]];
[[34;37];[9]];
[[34;9;9]];
[[34;9;37];[9]];
[[34;42]];
[[34;37];[42]];
[[34;9;42]];
[[34;9;37];[42]];
[[34];[0]];
[[34;37];[0]];
[[34;9];[0]];
[[34;9;37];[0]];
[[34];[40]];
[[34;37];[40]];
[[34;9];[40]];
[[34;9;37];[40]];
[[34];[35]];
[[34;37];[35]];
[[34;9];[35]];
[[34;9;37];[35]];
[[34;7]];
[[34;37];[7]];
[[34;9;7]];
[[34;9;37];[7]];
[[12];[1]];
[[12;37];[1]];
[[12;9];[1]];
[[12;9;37];[1]];
[[12];[2]];
[[12;37];[2]];
[[12;9];[2]];
[[12;9;37];[2]];
[[12;3]];
[[12;37];[3]];
[[12;9;3]];
[[12;9;37];[3]];
[[12];[4]];
[[12;37];[4]];
[[12;9];[4]];
[[12;9;37];[4]];
[[12;5]];
[[12;37;5]];
[[12;9;5]];
[[12;9;37;5]];
[[12];[6]];
[[12;37];[6]];
[[12;9];[6]];
[[12;9;37];[6]];
[[12;8]];
[[12;37;8]];
[[12;9;8]];
[[12;9;37;8]];
[[12;10]];
[[12;37;10]];
[[12;9;10]];
[[12;9;37;10]];
[[12;11]];
[[12;37;11]];
[[12;9;11]];
[[12;9;37;11]];
[[12;14]];
[[12;37;14]];
[[12;9;14]];
[[12;9;37;14]];
[[12;15]];
[[12;37];[15]];
[[12;9;15]];
[[12;9;37];[15]];
[[12];[16]];
[[12;37];[16]];
[[12;9];[16]];
[[12;9;37];[16]];
[[12];[17]];
[[12;37];[17]];
[[12;9];[17]];
[[12;9;37];[17]];
[[12];[18]];
[[12;37];[18]];
[[12;9];[18]];
[[12;9;37];[18]];
[[12;19]];
[[12;37];[19]];
[[12;9;19]];
[[12;9;37];[19]];
[[12];[20]];
[[12;37];[20]];
[[12;9];[20]];
[[12;9;37];[20]];
[[12;21]];
[[12;37];[21]];
[[12;9;21]];
[[12;9;37];[21]];
[[12;22]];
[[12;37;22]];
[[12;9;22]];
[[12;9;37;22]];
[[12];[23]];
[[12;37];[23]];
[[12;9];[23]];
[[12;9;37];[23]];
[[12];[24]];
[[12;37];[24]];
[[12;9];[24]];
[[12;9;37];[24]];
[[12];[25]];
[[12;37];[25]];
[[12;9];[25]];
[[12;9;37];[25]];
[[12;26]];
[[12;37;26]];
[[12;9;26]];
[[12;9;37;26]];
[[12;27]];
[[12;37;27]];
[[12;9;27]];
[[12;9;37;27]];
[[12;28]];
[[12;37];[28]];
[[12;9;28]];
[[12;9;37];[28]];
[[12];[29]];
[[12;37];[29]];
[[12;9];[29]];
[[12;9;37];[29]];
[[12];[30]];
[[12;37];[30]];
[[12;9];[30]];
[[12;9;37];[30]];
[[12;31]];
[[12;37];[31]];
[[12;9;31]];
[[12;9;37];[31]];
[[12];[32]];
[[12;37];[32]];
[[12;9];[32]];
[[12;9;37];[32]];
[[12;33]];
[[12;37];[33]];
[[12;9;33]];
[[12;9;37];[33]];
[[12;37]];
[[12;37;37]];
[[12;9;37]];
[[12;9;37;37]];
[[12;38]];
[[12;37;38]];
[[12;9;38]];
[[12;9;37;38]];
[[12;39]];
[[12;37;39]];
[[12;9;39]];
[[12;9;37;39]];
[[12;41]];
[[12;37;41]];
[[12;9;41]];
[[12;9;37;41]];
[[12];[34]];
[[12;37];[34]];
[[12;9];[34]];
[[12;9;37];[34]];
[[12];[12]];
[[12;37];[12]];
[[12;9];[12]];
[[12;9;37];[12]];
[[12;13]];
[[12;37];[13]];
[[12;9;13]];
[[12;9;37];[13]];
[[12;9]];
[[12;37];[9]];
[[12;9;9]];
[[12;9;37];[9]];
[[12;42]];
[[12;37];[42]];
[[12;9;42]];
[[12;9;37];[42]];
[[12];[0]];
[[12;37];[0]];
[[12;9];[0]];
[[12;9;37];[0]];
[[12];[40]];
[[12;37];[40]];
[[12;9];[40]];
[[12;9;37];[40]];
[[12];[35]];
[[12;37];[35]];
[[12;9];[35]];
[[12;9;37];[35]];
[[12;7]];
[[12;37];[7]];
[[12;9;7]];
[[12;9;37];[7]];
[[13];[1]];
[[13;37];[1]];
[[13;9];[1]];
[[13;9;37];[1]];
[[13];[2]];
[[13;37];[2]];
[[13;9];[2]];
[[13;9;37];[2]];
[[13;3]];
[[13;37];[3]];
[[13;9;3]];
[[13;9;37];[3]];
[[13];[4]];
[[13;37];[4]];
[[13;9];[4]];
[[13;9;37];[4]];
[[13;5]];
[[13;37;5]];
[[13;9;5]];
[[13;9;37;5]];
[[13];[6]];
[[13;37];[6]];
[[13;9];[6]];
[[13;9;37];[6]];
[[13;8]];
[[13;37;8]];
[[13;9;8]];
[[13;9;37;8]];
[[13;10]];
[[13;37;10]];
[[13;9;10]];
[[13;9;37;10]];
[[13;11]];
[[13;37;11]];
[[13;9;11]];
[[13;9;37;11]];
[[13;14]];
[[13;37;14]];
[[13;9;14]];
[[13;9;37;14]];
[[13;15]];
[[13;37];[15]];
[[13;9;15]];
[[13;9;37];[15]];
[[13];[16]];
[[13;37];[16]];
[[13;9];[16]];
[[13;9;37];[16]];
[[13];[17]];
[[13;37];[17]];
[[13;9];[17]];
[[13;9;37];[17]];
[[13];[18]];
[[13;37];[18]];
[[13;9];[18]];
[[13;9;37];[18]];
[[13;19]];
[[13;37];[19]];
[[13;9;19]];
[[13;9;37];[19]];
[[13];[20]];
[[13;37];[20]];
[[13;9];[20]];
[[13;9;37];[20]];
[[13;21]];
[[13;37];[21]];
[[13;9;21]];
[[13;9;37];[21]];
[[13;22]];
[[13;37;22]];
[[13;9;22]];
[[13;9;37;22]];
[[13];[23]];
[[13;37];[23]];
[[13;9];[23]];
[[13;9;37];[23]];
[[13];[24]];
[[13;37];[24]];
[[13;9];[24]];
[[13;9;37];[24]];
[[13];[25]];
[[13;37];[25]];
[[13;9];[25]];
[[13;9;37];[25]];
[[13;26]];
[[13;37;26]];
[[13;9;26]];
[[13;9;37;26]];
[[13;27]];
[[13;37;27]];
[[13;9;27]];
[[13;9;37;27]];
[[13;28]];
[[13;37];[28]];
[[13;9;28]];
[[13;9;37];[28]];
[[13];[29]];
[[13;37];[29]];
[[13;9];[29]];
[[13;9;37];[29]];
[[13];[30]];
[[13;37];[30]];
[[13;9];[30]];
[[13;9;37];[30]];
[[13;31]];
[[13;37];[31]];
[[13;9;31]];
[[13;9;37];[31]];
[[13];[32]];
[[13;37];[32]];
[[13;9];[32]];
[[13;9;37];[32]];
[[13;33]];
[[13;37];[33]];
[[13;9;33]];
[[13;9;37];[33]];
[[13;37]];
[[13;37;37]];
[[13;9;37]];
[[13;9;37;37]];
[[13;38]];
[[13;37;38]];
[[13;9;38]];
[[13;9;37;38]];
[[13;39]];
[[13;37;39]];
[[13;9;39]];
[[13;9;37;39]];
[[13;41]];
[[13;37;41]];
[[13;9;41]];
[[13;9;37;41]];
[[13];[34]];
[[13;37];[34]];
[[13;9];[34]];
[[13;9;37];[34]];
[[13];[12]];
[[13;37];[12]];
[[13;9];[12]];
[[13;9;37];[12]];
[[13];[13]];
[[13;37];[13]];
[[13;9];[13]];
[[13;9;37];[13]];
[[13;9]];
[[13;37];[9]];
[[13;9;9]];
[[13;9;37];[9]];
[[13;42]];
[[13;37];[42]];
[[13;9;42]];
[[13;9;37];[42]];
[[13];[0]];
[[13;37];[0]];
[[13;9];[0]];
[[13;9;37];[0]];
[[13];[40]];
[[13;37];[40]];
[[13;9];[40]];
[[13;9;37];[40]];
[[13];[35]];
[[13;37];[35]];
[[13;9];[35]];
[[13;9;37];[35]];
[[13;7]];
[[13;37];[7]];
[[13;9;7]];
[[13;9;37];[7]];
[[9;1]];
[[9;37];[1]];
[[9;9;1]];
[[9;9;37];[1]];
[[9];[2]];
[[9;37];[2]];
[[9;9];[2]];
[[9;9;37];[2]];
[[9;3]];
[[9;37];[3]];
[[9;9;3]];
[[9;9;37];[3]];
[[9];[4]];
[[9;37];[4]];
[[9;9];[4]];
[[9;9;37];[4]];
[[9;5]];
[[9;37;5]];
[[9;9;5]];
[[9;9;37;5]];
[[9];[6]];
[[9;37];[6]];
[[9;9];[6]];
[[9;9;37];[6]];
[[9;8]];
[[9;37;8]];
[[9;9;8]];
[[9;9;37;8]];
[[9;10]];
[[9;37;10]];
[[9;9;10]];
[[9;9;37;10]];
[[9;11]];
[[9;37;11]];
[[9;9;11]];
[[9;9;37;11]];
[[9;14]];
[[9;37;14]];
[[9;9;14]];
[[9;9;37;14]];
[[9;15]];
[[9;37];[15]];
[[9;9;15]];
[[9;9;37];[15]];
[[9];[16]];
[[9;37];[16]];
[[9;9];[16]];
[[9;9;37];[16]];
[[9];[17]];
[[9;37];[17]];
[[9;9];[17]];
[[9;9;37];[17]];
[[9;18]];
[[9;37];[18]];
[[9;9;18]];
[[9;9;37];[18]];
[[9;19]];
[[9;37];[19]];
[[9;9;19]];
[[9;9;37];[19]];
[[9];[20]];
[[9;37];[20]];
[[9;9];[20]];
[[9;9;37];[20]];
[[9;21]];
[[9;37];[21]];
[[9;9;21]];
[[9;9;37];[21]];
[[9;22]];
[[9;37;22]];
[[9;9;22]];
[[9;9;37;22]];
[[9];[23]];
[[9;37];[23]];
[[9;9];[23]];
[[9;9;37];[23]];
[[9];[24]];
[[9;37];[24]];
[[9;9];[24]];
[[9;9;37];[24]];
[[9];[25]];
[[9;37];[25]];
[[9;9];[25]];
[[9;9;37];[25]];
[[9;26]];
[[9;37;26]];
[[9;9;26]];
[[9;9;37;26]];
[[9;27]];
[[9;37;27]];
[[9;9;27]];
[[9;9;37;27]];
[[9;28]];
[[9;37];[28]];
[[9;9;28]];
[[9;9;37];[28]];
[[9;29]];
[[9;37];[29]];
[[9;9;29]];
[[9;9;37];[29]];
[[9;30]];
[[9;37];[30]];
[[9;9;30]];
[[9;9;37];[30]];
[[9;31]];
[[9;37];[31]];
[[9;9;31]];
[[9;9;37];[31]];
[[9;32]];
[[9;37];[32]];
[[9;9;32]];
[[9;9;37];[32]];
[[9;33]];
[[9;37];[33]];
[[9;9;33]];
[[9;9;37];[33]];
[[9;37]];
[[9;37;37]];
[[9;9;37]];
[[9;9;37;37]];
[[9;38]];
[[9;37;38]];
[[9;9;38]];
[[9;9;37;38]];
[[9;39]];
[[9;37;39]];
[[9;9;39]];
[[9;9;37;39]];
[[9;41]];
[[9;37;41]];
[[9;9;41]];
[[9;9;37;41]];
[[9];[34]];
[[9;37];[34]];
[[9;9];[34]];
[[9;9;37];[34]];
[[9];[12]];
[[9;37];[12]];
[[9;9];[12]];
[[9;9;37];[12]];
[[9];[13]];
[[9;37];[13]];
[[9;9];[13]];
[[9;9;37];[13]];
[[9;9]];
[[9;37];[9]];
[[9;9;9]];
[[9;9;37];[9]];
[[9;42]];
[[9;37];[42]];
[[9;9;42]];
[[9;9;37];[42]];
[[9;0]];
[[9;37];[0]];
[[9;9;0]];
[[9;9;37];[0]];
[[9;40]];
[[9;37];[40]];
[[9;9;40]];
[[9;9;37];[40]];
[[9;35]];
[[9;37];[35]];
[[9;9;35]];
[[9;9;37];[35]];
[[9;7]];
[[9;37];[7]];
[[9;9;7]];
[[9;9;37];[7]];
[[42;1]];
[[42;37];[1]];
[[42;9;1]];
[[42;9;37];[1]];
[[42];[2]];
[[42;37];[2]];
[[42;9];[2]];
[[42;9;37];[2]];
[[42;3]];
[[42;37];[3]];
[[42;9;3]];
[[42;9;37];[3]];
[[42];[4]];
[[42;37];[4]];
[[42;9];[4]];
[[42;9;37];[4]];
[[42;5]];
[[42;37;5]];
[[42;9;5]];
[[42;9;37;5]];
[[42];[6]];
[[42;37];[6]];
[[42;9];[6]];
[[42;9;37];[6]];
[[42;8]];
[[42;37;8]];
[[42;9;8]];
[[42;9;37;8]];
[[42;10]];
[[42;37;10]];
[[42;9;10]];
[[42;9;37;10]];
[[42;11]];
[[42;37;11]];
[[42;9;11]];
[[42;9;37;11]];
[[42;14]];
[[42;37;14]];
[[42;9;14]];
[[42;9;37;14]];
[[42;15]];
[[42;37];[15]];
[[42;9;15]];
[[42;9;37];[15]];
[[42];[16]];
[[42;37];[16]];
[[42;9];[16]];
[[42;9;37];[16]];
[[42];[17]];
[[42;37];[17]];
[[42;9];[17]];
[[42;9;37];[17]];
[[42;18]];
[[42;37];[18]];
[[42;9;18]];
[[42;9;37];[18]];
[[42;19]];
[[42;37];[19]];
[[42;9;19]];
[[42;9;37];[19]];
[[42;20]];
[[42;37];[20]];
[[42;9];[20]];
[[42;9;37];[20]];
[[42;21]];
[[42;37];[21]];
[[42;9;21]];
[[42;9;37];[21]];
[[42;22]];
[[42;37;22]];
[[42;9;22]];
[[42;9;37;22]];
[[42];[23]];
[[42;37];[23]];
[[42;9];[23]];
[[42;9;37];[23]];
[[42];[24]];
[[42;37];[24]];
[[42;9];[24]];
[[42;9;37];[24]];
[[42];[25]];
[[42;37];[25]];
[[42;9];[25]];
[[42;9;37];[25]];
[[42;26]];
[[42;37;26]];
[[42;9;26]];
[[42;9;37;26]];
[[42;27]];
[[42;37;27]];
[[42;9;27]];
[[42;9;37;27]];
[[42;28]];
[[42;37];[28]];
[[42;9;28]];
[[42;9;37];[28]];
[[42;29]];
[[42;37];[29]];
[[42;9;29]];
[[42;9;37];[29]];
[[42;30]];
[[42;37];[30]];
[[42;9;30]];
[[42;9;37];[30]];
[[42;31]];
[[42;37];[31]];
[[42;9;31]];
[[42;9;37];[31]];
[[42;32]];
[[42;37];[32]];
[[42;9;32]];
[[42;9;37];[32]];
[[42;33]];
[[42;37];[33]];
[[42;9;33]];
[[42;9;37];[33]];
[[42;37]];
[[42;37;37]];
[[42;9;37]];
[[42;9;37;37]];
[[42;38]];
[[42;37;38]];
[[42;9;38]];
[[42;9;37;38]];
[[42;39]];
[[42;37;39]];
[[42;9;39]];
[[42;9;37;39]];
[[42;41]];
[[42;37;41]];
[[42;9;41]];
[[42;9;37;41]];
[[42];[34]];
[[42;37];[34]];
[[42;9];[34]];
[[42;9;37];[34]];
[[42;12]];
[[42;37];[12]];
[[42;9];[12]];
[[42;9;37];[12]];
[[42;13]];
[[42;37];[13]];
[[42;9];[13]];
[[42;9;37];[13]];
[[42;9]];
[[42;37];[9]];
[[42;9;9]];
[[42;9;37];[9]];
[[42;42]];
[[42;37];[42]];
[[42;9;42]];
[[42;9;37];[42]];
[[42;0]];
[[42;37];[0]];
[[42;9;0]];
[[42;9;37];[0]];
[[42;40]];
[[42;37];[40]];
[[42;9;40]];
[[42;9;37];[40]];
[[42;35]];
[[42;37];[35]];
[[42;9;35]];
[[42;9;37];[35]];
[[42;7]];
[[42;37];[7]];
[[42;9;7]];
[[42;9;37];[7]];
[[0;1]];
[[0;37];[1]];
[[0;9;1]];
[[0;9;37];[1]];
[[0];[2]];
[[0;37];[2]];
[[0;9];[2]];
[[0;9;37];[2]];
[[0;3]];
[[0;37];[3]];
[[0;9;3]];
[[0;9;37];[3]];
[[0];[4]];
[[0;37];[4]];
[[0;9];[4]];
[[0;9;37];[4]];
[[0;5]];
[[0;37;5]];
[[0;9;5]];
[[0;9;37;5]];
[[0];[6]];
[[0;37];[6]];
[[0;9];[6]];
[[0;9;37];[6]];
[[0;8]];
[[0;37;8]];
[[0;9;8]];
[[0;9;37;8]];
[[0;10]];
[[0;37;10]];
[[0;9;10]];
[[0;9;37;10]];
[[0;11]];
[[0;37;11]];
[[0;9;11]];
[[0;9;37;11]];
[[0;14]];
[[0;37;14]];
[[0;9;14]];
[[0;9;37;14]];
[[0;15]];
[[0;37];[15]];
[[0;9;15]];
[[0;9;37];[15]];
[[0];[16]];
[[0;37];[16]];
[[0;9];[16]];
[[0;9;37];[16]];
[[0];[17]];
[[0;37];[17]];
[[0;9];[17]];
[[0;9;37];[17]];
[[0;18]];
[[0;37];[18]];
[[0;9;18]];
[[0;9;37];[18]];
[[0;19]];
[[0;37];[19]];
[[0;9;19]];
[[0;9;37];[19]];
[[0];[20]];
[[0;37];[20]];
[[0;9];[20]];
[[0;9;37];[20]];
[[0;21]];
[[0;37];[21]];
[[0;9;21]];
[[0;9;37];[21]];
[[0;22]];
[[0;37;22]];
[[0;9;22]];
[[0;9;37;22]];
[[0];[23]];
[[0;37];[23]];
[[0;9];[23]];
[[0;9;37];[23]];
[[0];[24]];
[[0;37];[24]];
[[0;9];[24]];
[[0;9;37];[24]];
[[0];[25]];
[[0;37];[25]];
[[0;9];[25]];
[[0;9;37];[25]];
[[0;26]];
[[0;37;26]];
[[0;9;26]];
[[0;9;37;26]];
[[0;27]];
[[0;37;27]];
[[0;9;27]];
[[0;9;37;27]];
[[0;28]];
[[0;37];[28]];
[[0;9;28]];
[[0;9;37];[28]];
[[0;29]];
[[0;37];[29]];
[[0;9;29]];
[[0;9;37];[29]];
[[0;30]];
[[0;37];[30]];
[[0;9;30]];
[[0;9;37];[30]];
[[0;31]];
[[0;37];[31]];
[[0;9;31]];
[[0;9;37];[31]];
[[0;32]];
[[0;37];[32]];
[[0;9;32]];
[[0;9;37];[32]];
[[0;33]];
[[0;37];[33]];
[[0;9;33]];
[[0;9;37];[33]];
[[0;37]];
[[0;37;37]];
[[0;9;37]];
[[0;9;37;37]];
[[0;38]];
[[0;37;38]];
[[0;9;38]];
[[0;9;37;38]];
[[0;39]];
[[0;37;39]];
[[0;9;39]];
[[0;9;37;39]];
[[0;41]];
[[0;37;41]];
[[0;9;41]];
[[0;9;37;41]];
[[0];[34]];
[[0;37];[34]];
[[0;9];[34]];
[[0;9;37];[34]];
[[0];[12]];
[[0;37];[12]];
[[0;9];[12]];
[[0;9;37];[12]];
[[0];[13]];
[[0;37];[13]];
[[0;9];[13]];
[[0;9;37];[13]];
[[0;9]];
[[0;37];[9]];
[[0;9;9]];
[[0;9;37];[9]];
[[0;42]];
[[0;37];[42]];
[[0;9;42]];
[[0;9;37];[42]];
[[0;0]];
[[0;37];[0]];
[[0;9;0]];
[[0;9;37];[0]];
[[0;40]];
[[0;37];[40]];
[[0;9;40]];
[[0;9;37];[40]];
[[0;35]];
[[0;37];[35]];
[[0;9;35]];
[[0;9;37];[35]];
[[0;7]];
[[0;37];[7]];
[[0;9;7]];
[[0;9;37];[7]];
[[40;1]];
[[40;37];[1]];
[[40;9;1]];
[[40;9;37];[1]];
[[40];[2]];
[[40;37];[2]];
[[40;9];[2]];
[[40;9;37];[2]];
[[40;3]];
[[40;37];[3]];
[[40;9;3]];
[[40;9;37];[3]];
[[40];[4]];
[[40;37];[4]];
[[40;9];[4]];
[[40;9;37];[4]];
[[40;5]];
[[40;37;5]];
[[40;9;5]];
[[40;9;37;5]];
[[40];[6]];
[[40;37];[6]];
[[40;9];[6]];
[[40;9;37];[6]];
[[40;8]];
[[40;37;8]];
[[40;9;8]];
[[40;9;37;8]];
[[40;10]];
[[40;37;10]];
[[40;9;10]];
[[40;9;37;10]];
[[40;11]];
[[40;37;11]];
[[40;9;11]];
[[40;9;37;11]];
[[40;14]];
[[40;37;14]];
[[40;9;14]];
[[40;9;37;14]];
[[40;15]];
[[40;37];[15]];
[[40;9;15]];
[[40;9;37];[15]];
[[40];[16]];
[[40;37];[16]];
[[40;9];[16]];
[[40;9;37];[16]];
[[40];[17]];
[[40;37];[17]];
[[40;9];[17]];
[[40;9;37];[17]];
[[40;18]];
[[40;37];[18]];
[[40;9;18]];
[[40;9;37];[18]];
[[40;19]];
[[40;37];[19]];
[[40;9;19]];
[[40;9;37];[19]];
[[40];[20]];
[[40;37];[20]];
[[40;9];[20]];
[[40;9;37];[20]];
[[40;21]];
[[40;37];[21]];
[[40;9;21]];
[[40;9;37];[21]];
[[40;22]];
[[40;37;22]];
[[40;9;22]];
[[40;9;37;22]];
[[40];[23]];
[[40;37];[23]];
[[40;9];[23]];
[[40;9;37];[23]];
[[40];[24]];
[[40;37];[24]];
[[40;9];[24]];
[[40;9;37];[24]];
[[40];[25]];
[[40;37];[25]];
[[40;9];[25]];
[[40;9;37];[25]];
[[40;26]];
[[40;37;26]];
[[40;9;26]];
[[40;9;37;26]];
[[40;27]];
[[40;37;27]];
[[40;9;27]];
[[40;9;37;27]];
[[40;28]];
[[40;37];[28]];
[[40;9;28]];
[[40;9;37];[28]];
[[40;29]];
[[40;37];[29]];
[[40;9;29]];
[[40;9;37];[29]];
[[40;30]];
[[40;37];[30]];
[[40;9;30]];
[[40;9;37];[30]];
[[40;31]];
[[40;37];[31]];
[[40;9;31]];
[[40;9;37];[31]];
[[40;32]];
[[40;37];[32]];
[[40;9;32]];
[[40;9;37];[32]];
[[40;33]];
[[40;37];[33]];
[[40;9;33]];
[[40;9;37];[33]];
[[40;37]];
[[40;37;37]];
[[40;9;37]];
[[40;9;37;37]];
[[40;38]];
[[40;37;38]];
[[40;9;38]];
[[40;9;37;38]];
[[40;39]];
[[40;37;39]];
[[40;9;39]];
[[40;9;37;39]];
[[40;41]];
[[40;37;41]];
[[40;9;41]];
[[40;9;37;41]];
[[40];[34]];
[[40;37];[34]];
[[40;9];[34]];
[[40;9;37];[34]];
[[40];[12]];
[[40;37];[12]];
[[40;9];[12]];
[[40;9;37];[12]];
[[40];[13]];
[[40;37];[13]];
[[40;9];[13]];
[[40;9;37];[13]];
[[40;9]];
[[40;37];[9]];
[[40;9;9]];
[[40;9;37];[9]];
[[40;42]];
[[40;37];[42]];
[[40;9;42]];
[[40;9;37];[42]];
[[40;0]];
[[40;37];[0]];
[[40;9;0]];
[[40;9;37];[0]];
[[40;40]];
[[40;37];[40]];
[[40;9;40]];
[[40;9;37];[40]];
[[40;35]];
[[40;37];[35]];
[[40;9;35]];
[[40;9;37];[35]];
[[40;7]];
[[40;37];[7]];
[[40;9;7]];
[[40;9;37];[7]];
[[35;1]];
[[35;37];[1]];
[[35;9;1]];
[[35;9;37];[1]];
[[35];[2]];
[[35;37];[2]];
[[35;9];[2]];
[[35;9;37];[2]];
[[35;3]];
[[35;37];[3]];
[[35;9;3]];
[[35;9;37];[3]];
[[35];[4]];
[[35;37];[4]];
[[35;9];[4]];
[[35;9;37];[4]];
[[35;5]];
[[35;37;5]];
[[35;9;5]];
[[35;9;37;5]];
[[35];[6]];
[[35;37];[6]];
[[35;9];[6]];
[[35;9;37];[6]];
[[35;8]];
[[35;37;8]];
[[35;9;8]];
[[35;9;37;8]];
[[35;10]];
[[35;37;10]];
[[35;9;10]];
[[35;9;37;10]];
[[35;11]];
[[35;37;11]];
[[35;9;11]];
[[35;9;37;11]];
[[35;14]];
[[35;37;14]];
[[35;9;14]];
[[35;9;37;14]];
[[35;15]];
[[35;37];[15]];
[[35;9;15]];
[[35;9;37];[15]];
[[35];[16]];
[[35;37];[16]];
[[35;9];[16]];
[[35;9;37];[16]];
[[35];[17]];
[[35;37];[17]];
[[35;9];[17]];
[[35;9;37];[17]];
[[35;18]];
[[35;37];[18]];
[[35;9;18]];
[[35;9;37];[18]];
[[35;19]];
[[35;37];[19]];
[[35;9;19]];
[[35;9;37];[19]];
[[35];[20]];
[[35;37];[20]];
[[35;9];[20]];
[[35;9;37];[20]];
[[35;21]];
[[35;37];[21]];
[[35;9;21]];
[[35;9;37];[21]];
[[35;22]];
[[35;37;22]];
[[35;9;22]];
[[35;9;37;22]];
[[35];[23]];
[[35;37];[23]];
[[35;9];[23]];
[[35;9;37];[23]];
[[35];[24]];
[[35;37];[24]];
[[35;9];[24]];
[[35;9;37];[24]];
[[35];[25]];
[[35;37];[25]];
[[35;9];[25]];
[[35;9;37];[25]];
[[35;26]];
[[35;37;26]];
[[35;9;26]];
[[35;9;37;26]];
[[35;27]];
[[35;37;27]];
[[35;9;27]];
[[35;9;37;27]];
[[35;28]];
[[35;37];[28]];
[[35;9;28]];
[[35;9;37];[28]];
[[35;29]];
[[35;37];[29]];
[[35;9;29]];
[[35;9;37];[29]];
[[35;30]];
[[35;37];[30]];
[[35;9;30]];
[[35;9;37];[30]];
[[35;31]];
[[35;37];[31]];
[[35;9;31]];
[[35;9;37];[31]];
[[35;32]];
[[35;37];[32]];
[[35;9;32]];
[[35;9;37];[32]];
[[35;33]];
[[35;37];[33]];
[[35;9;33]];
[[35;9;37];[33]];
[[35;37]];
[[35;37;37]];
[[35;9;37]];
[[35;9;37;37]];
[[35;38]];
[[35;37;38]];
[[35;9;38]];
[[35;9;37;38]];
[[35;39]];
[[35;37;39]];
[[35;9;39]];
[[35;9;37;39]];
[[35;41]];
[[35;37;41]];
[[35;9;41]];
[[35;9;37;41]];
[[35];[34]];
[[35;37];[34]];
[[35;9];[34]];
[[35;9;37];[34]];
[[35];[12]];
[[35;37];[12]];
[[35;9];[12]];
[[35;9;37];[12]];
[[35];[13]];
[[35;37];[13]];
[[35;9];[13]];
[[35;9;37];[13]];
[[35;9]];
[[35;37];[9]];
[[35;9;9]];
[[35;9;37];[9]];
[[35;42]];
[[35;37];[42]];
[[35;9;42]];
[[35;9;37];[42]];
[[35;0]];
[[35;37];[0]];
[[35;9;0]];
[[35;9;37];[0]];
[[35;40]];
[[35;37];[40]];
[[35;9;40]];
[[35;9;37];[40]];
[[35;35]];
[[35;37];[35]];
[[35;9;35]];
[[35;9;37];[35]];
[[35;7]];
[[35;37];[7]];
[[35;9;7]];
[[35;9;37];[7]];
[[7];[1]];
[[7;37];[1]];
[[7;9];[1]];
[[7;9;37];[1]];
[[7];[2]];
[[7;37];[2]];
[[7;9];[2]];
[[7;9;37];[2]];
[[7;3]];
[[7;37];[3]];
[[7;9;3]];
[[7;9;37];[3]];
[[7];[4]];
[[7;37];[4]];
[[7;9];[4]];
[[7;9;37];[4]];
[[7;5]];
[[7;37;5]];
[[7;9;5]];
[[7;9;37;5]];
[[7];[6]];
[[7;37];[6]];
[[7;9];[6]];
[[7;9;37];[6]];
[[7;8]];
[[7;37;8]];
[[7;9;8]];
[[7;9;37;8]];
[[7;10]];
[[7;37;10]];
[[7;9;10]];
[[7;9;37;10]];
[[7;11]];
[[7;37;11]];
[[7;9;11]];
[[7;9;37;11]];
[[7;14]];
[[7;37;14]];
[[7;9;14]];
[[7;9;37;14]];
[[7;15]];
[[7;37];[15]];
[[7;9;15]];
[[7;9;37];[15]];
[[7];[16]];
[[7;37];[16]];
[[7;9];[16]];
[[7;9;37];[16]];
[[7];[17]];
[[7;37];[17]];
[[7;9];[17]];
[[7;9;37];[17]];
[[7];[18]];
[[7;37];[18]];
[[7;9];[18]];
[[7;9;37];[18]];
[[7;19]];
[[7;37];[19]];
[[7;9;19]];
[[7;9;37];[19]];
[[7];[20]];
[[7;37];[20]];
[[7;9];[20]];
[[7;9;37];[20]];
[[7];[21]];
[[7;37];[21]];
[[7;9];[21]];
[[7;9;37];[21]];
[[7;22]];
[[7;37;22]];
[[7;9;22]];
[[7;9;37;22]];
[[7];[23]];
[[7;37];[23]];
[[7;9];[23]];
[[7;9;37];[23]];
[[7];[24]];
[[7;37];[24]];
[[7;9];[24]];
[[7;9;37];[24]];
[[7];[25]];
[[7;37];[25]];
[[7;9];[25]];
[[7;9;37];[25]];
[[7;26]];
[[7;37;26]];
[[7;9;26]];
[[7;9;37;26]];
[[7;27]];
[[7;37;27]];
[[7;9;27]];
[[7;9;37;27]];
[[7;28]];
[[7;37];[28]];
[[7;9;28]];
[[7;9;37];[28]];
[[7];[29]];
[[7;37];[29]];
[[7;9];[29]];
[[7;9;37];[29]];
[[7];[30]];
[[7;37];[30]];
[[7;9];[30]];
[[7;9;37];[30]];
[[7];[31]];
[[7;37];[31]];
[[7;9];[31]];
[[7;9;37];[31]];
[[7];[32]];
[[7;37];[32]];
[[7;9];[32]];
[[7;9;37];[32]];
[[7;33]];
[[7;37];[33]];
[[7;9;33]];
[[7;9;37];[33]];
[[7;37]];
[[7;37;37]];
[[7;9;37]];
[[7;9;37;37]];
[[7;38]];
[[7;37;38]];
[[7;9;38]];
[[7;9;37;38]];
[[7;39]];
[[7;37;39]];
[[7;9;39]];
[[7;9;37;39]];
[[7;41]];
[[7;37;41]];
[[7;9;41]];
[[7;9;37;41]];
[[7];[34]];
[[7;37];[34]];
[[7;9];[34]];
[[7;9;37];[34]];
[[7];[12]];
[[7;37];[12]];
[[7;9];[12]];
[[7;9;37];[12]];
[[7];[13]];
[[7;37];[13]];
[[7;9];[13]];
[[7;9;37];[13]];
[[7;9]];
[[7;37];[9]];
[[7;9;9]];
[[7;9;37];[9]];
[[7;42]];
[[7;37];[42]];
[[7;9;42]];
[[7;9;37];[42]];
[[7];[0]];
[[7;37];[0]];
[[7;9];[0]];
[[7;9;37];[0]];
[[7];[40]];
[[7;37];[40]];
[[7;9];[40]];
[[7;9;37];[40]];
[[7];[35]];
[[7;37];[35]];
[[7;9];[35]];
[[7;9;37];[35]];
[[7;7]];
[[7;37];[7]];
[[7;9;7]];
[[7;9;37];[7]];
[[11;26];[1;26];[9]];
[[1;9]];
[[37];[42;1]];
[[1;42;37]];
[[5];[7]];
[[11];[7]];
[[27];[7]];
[[7;39]];
[[39;7]];
[[7;9;15]];
[[42;15]];
[[42;38]];
[[2;2]];
[[7];[6]];
[[6];[7]];
[[7;19]];
[[35;21]];
[[14;21]];
[[21;21]];
[[29;21]];
[[12;31]];
[[35;29]];
[[32;12]];
[[32;35]];
[[31;35]];
[[23;25]];
[[25;25]];
[[24;24]];
[[25;21]];
[[25;31]];
[[32;25]];
[[12;13]];
[[1;1;1;1;1]];
[[1;1;1;33;1]];
[[1;1;1;33;1]];
[[33;1;1;1;33;37];[1;1;1]];
[[1;1;1;37];[33;1;1;1;33]];
[[1;1;1;30;1;10;37;37;37;37;37]];
[[1;1;1;30;1;10;15;37;37;37;37;37]];
[[22;22];[20];[20;8];[1;1;1];[20;22;22]];
[[1;1;3];[1;1]];
[[19;29]];
[[1;22;1;22]];
[[20;22];[20;22]];
[[1;37;37];[1]];
[[1;37;37;41];[1]];
[[1;37];[9;1]];
[[29;9;1;30;1;10;19];[30;1;10]];
[[1;1;1;1;37];[1;1;1;1;30;1;10;22]];
[[20];[30;20;10]];
[[1;1;1;1;37;22;1;1;1]];
[[30;1;10;1;1]];
[[30;1;8];[1;1]];
[[4;1;1;1;1;1;30;1;10;1]];
[[4;1;1;1;1;1;30;1;8];[1]];
[[1;1;1;1;30;1;10;22]];
[[1;1;1;1;30;1;22;10]];
[[1;1;1;1;30;1;10;14]];
[[1;1;1;1;30;1;14;10]];
[[1;1;1;1;30;37;1;37;10]];
[[1;1;1;1;30;1;8]];
[[1;1;1;1;30;1;8;22]];
[[1;1;1;1;30;1;8;14]];
[[1;1;1;1;30;37;1;37;8]];
[[1;1;1;30;1;10];[21];[30;1;10]];
[[30;1;1;1;30;1;10];[21;10;1]];
[[1;1;1;30;1;8];[21];[30;1;8]];
[[30;1;1;1;30;1;8];[21;8];[1]];
[[30;1;1;1;19;10;1;1;1;1]];
[[30;1;1;1;3;10;1;1;1;1]];
[[30;1;1;1;15;10;1;1;1;1]];
[[30;1;1;1;10;19];[1;1;1;1]];
[[30;1;1;1;10;3];[1;1;1;1]];
[[30;1;1;1;10;15;1;1;1;1]];
[[30;1;1;1;19;8];[1;1;1;1]];
[[30;1;1;1;3;8];[1;1;1;1]];
[[30;1;1;1;15;8];[1;1;1;1]];
[[30;1;1;1;8;19];[1;1;1;1]];
[[30;1;1;1;8;3];[1;1;1;1]];
[[30;1;1;1;8;15;1;1;1;1]];
[[1;1;1;9;30;1;9;10];[30;1;10]];
[[1;1;1;9;30;1;1;3];[1;9;30;1;10];[30;1;10;10]];
[[1;1;1;9;30;1;1;3];[1;9;30;1;10];[30;1;10;8]];
[[1;1;1;1;1;1;30;9;10];[30;1;9;10]];
[[1;1;1;1;1;1;30;33;9;33;10];[30;1;9;10]];
[[1;1;1;1;1;1;30;33;37];[9;37];[33;10];[30;1;9;10]];
[[1;1;1;1;1;1;33;37;30;37;9;37;10;37];[33;30;1;9;10]];
[[1;1;1;1;1;1;33;15;30;37;9;37;10;15;33;30;1;9;10]];
[[1;1;1;1;1;1;30;9;8];[30;1;9;10]];
[[1;1;1;1;1;1;30;33;9;33;8];[30;1;9;10]];
[[1;1;1;1;1;1;30;33;37];[9;37];[33;8];[30;1;9;10]];
[[1;1;1;1;1;1;33;37;30;37;9;37;8;37];[33;30;1;9;10]];
[[1;1;1;1;1;1;33;15;30;37;9;37;8;15;33;30;1;9;10]];
[[30;1;1;1;1;1;1;1;1;3];[15;10;1;1;1;1;1;1;1;1;1]];
[[30;1;1;1;1;1;1;1;1;3;10;15;1;1;1;1;1;1;1;1;1]];
[[30;1;1;1;1;1;1;1;1;10;3];[15;1;1;1;1;1;1;1;1;1]];
[[30;1;1;1;1;1;1;1;1;3];[15;8];[1;1;1;1;1;1;1;1;1]];
[[30;1;1;1;1;1;1;1;1;3;8;15;1;1;1;1;1;1;1;1;1]];
[[30;1;1;1;1;1;1;1;1;8;3];[15;1;1;1;1;1;1;1;1;1]];
[[1;1;1;1;1;1;1;1;30;10];[30;29;10;22]];
[[1;1;1;1;1;1;1;1;30;10];[30;10];[30;8]];
[[20];[30;20;10];[20];[20]];
[[20];[30;30;20;8;10];[20];[20]];
[[20];[30;30;20;10;8];[20];[20]];
[[20];[30;20;8];[20];[20]];
[[20];[30;30;20;8;8];[20];[20]];
[[20];[30;30;20;10;10];[20];[20]];
[[30;20;7;7;28;10];[20;7];[20]];
[[30;20;7;7;10;28];[20;7];[20]];
[[30;20;7;7;28;8];[20;7];[20]];
[[30;20;7;7;8;28];[20;7];[20]];
[[30;1;1;1;1];[4;10;1;1;1;1;1;9]];
[[30;1;1;1;1;10];[4;1;1;1;1;1;9]];
[[30;1;1;1;1];[4;8];[1;1;1;1;1;9]];
[[30;1;1;1;1;8];[4;1;1;1;1;1;9]];
[[30;1;1;1;1;22;38;38;10;1;1;19;19];[1]];
[[30;1;1;1;1;22;38;38;8];[1;1;19;19];[1]];
[[30;29;22;29;10;32;30;29;22;29;10;0;30;32;29;22;29;10;1;30;29;22;29;10]];
[[1;1]];
[[1;1;37]];
[[1;1;37];[1]];
[[1];[20]];
[[1;9;1;9;1;9;37]];
[[1;1;1;9;1;9;1;9;1;1;9;37]];
[[20];[20]];
[[20];[20]];
[[20];[20];[20];[20]];
[[20;8];[20]];
[[20;8]];
[[20;8];[20]];
[[20;7];[20]];
[[20];[1];[20]];
[[17];[16];[16;37];[1;1;37];[17]];
[[20];[1;1;37]];
[[20];[20]];
[[20];[20]];
[[20];[20];[20]];
[[20;3];[20;3];[20;8]];
[[20;37];[17];[17;37];[20]];
[[20;7];[20;8]];
[[20];[20];[20]];
[[20];[20]];
[[20];[20;7];[20]];
[[20;7;7];[20];[20];[20];[20];[20];[20]];
[[20;7];[20;7];[20];[20]];
[[20;7];[20]];
[[1;1;22;37];[29]];
[[20];[30;20];[30;1;1;10;8];[20];[30;20]];
[[20];[30;1;1];[20];[20];[20;8;8;8];[20]];
[[20;8];[30;1;1;1;1;1;30;10;8];[20]];
[[20;8];[30;14;8];[20]];
[[20];[30;20]];
[[20];[30;17];[16;14;8];[20]];
[[20];[30;20]];
[[20];[30;20]];
[[20;28];[30;20;3];[20]];
[[20;8];[30;17];[17];[17]];
[[20];[30;16];[17];[30;20];[20;10];[17]];
[[20];[30;20;7];[20]];
[[20];[30;20];[20]];
[[30;1;10;37];[20]];
[[30;1;10;37];[20]];
[[30;1;10;37];[20]];
[[20;8];[1;1;1;30;20;8];[20]];
[[20];[30;20]];
[[20;37];[30;1]];
[[20;37];[30;20];[20;10]];
[[1;30;1;10;37]];
[[30;20;28];[20];[20;7];[20;28];[20]];
[[1;30;20];[20;7];[20;28];[20]];
[[1;1;30;20]];
[[30;20];[20;10]];
[[20];[30;20]];
[[20];[30;20]];
[[20;37];[30;20]];
[[1;10;8];[20]];
[[1;8;8]];
[[20;8;8];[20]];
[[20;8;8;8];[20]];
[[1;1;10;8];[20]];
[[20];[30;1;1;37];[1;1;10;8];[20]];
[[20;28];[20;7];[20];[30;1;1]];
[[20;7];[30;1;1;10;8];[20]];
[[20];[20;8;8];[20]];
[[20;8];[20]];
[[20;8;8];[20]];
[[20;8];[20;8];[20]];
[[20;8;8];[20]];
[[20;7];[20];[30;1;1;8;8]];
[[17];[16];[16];[16;14;8];[20];[20]];
[[20;10];[17;37];[17];[16];[16;14;8];[20]];
[[20;10;37];[19;37];[30;1;1]];
[[20;10;37;28;37];[30;1;1]];
[[20];[20;8;37;28;37];[20;28];[20]];
[[1;1;33;30;20]];
[[20;37];[33;1;33;37]];
[[20;8;33;1;1;1;37]];
[[1;1;1;33;37];[20]];
[[29;29;33;37];[20]];
[[20;28];[20;7];[20;7;28];[20;28];[20]];
[[20;28];[20;7];[20]];
[[20;28];[20;7;7];[20]];
[[20];[20;7;28];[20;7];[20;8];[20]];
[[20;7];[20;7];[20;28];[20;7];[20]];
[[20;28];[20];[30;1]];
[[20;7];[20;28];[20]];
[[20;22;37]];
[[20;22;37];[20]];
[[20];[20;22;37];[20];[20;7];[20]];
[[20;21];[20]];
[[20;7];[20;8;8;8]];
[[20;8;14;14;8;14;14;14];[20]];
[[20;8;14];[20;14];[20]];
[[20;8;28];[30;14;14;10];[20]];
[[20;8;28];[30;14;14;10];[20]];
[[20;37];[28];[20]];
[[20;14];[29;29;29;31];[20];[20]];
[[29;29];[20]];
[[7];[20;7];[20];[29;29];[20];[20]];
[[20;28];[32;29;29]];
[[20];[20;37];[32;8]];
[[20];[20;8];[1;1]];
[[20;8]];
[[20;8];[1;1;37]];
[[20;8];[20]];
[[20;8];[20]];
[[20;8];[20]];
[[20];[20;8;8];[20];[20]];
[[20];[20];[1;1];[20;8];[29];[20];[20]];
[[8];[20]];
[[8];[20]];
[[8];[20]];
[[8];[20];[20];[20];[20;37]];
[[20;8];[1;1];[20]];
[[1];[34];[1]];
[[34;34]];
[[34;34];[34]];
[[34;34];[34;34]];
[[34;34;41];[34;34]];
[[18;19;18]]].

Example line_test_count : zlen tests = 7282.
Proof. vm_compute. reflexivity. Qed.
(* The specification passes all tests. *)
Example spec_passes : filter (failing (rules_of uax14_break)) tests = [].
Proof. vm_compute. reflexivity. Qed.
(* The model fails three of them: ZWJ ID, ZWJ EB and ZWJ EM (LB8a). *)
Example model_fails : filter (failing model) tests = [[[ZWJ; ID]]; [[ZWJ; EB]]; [[ZWJ; EM]]].
Proof. vm_compute. reflexivity. Qed.
