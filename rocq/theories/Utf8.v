(* Utf8.v -- model of the parts of Go's package unicode/utf8 that are used (documented behaviour of
   DecodeRuneInString, EncodeRune, RuneStart), and of uax.go.  Bytes are integers in [0,256). *)
From Coq Require Import List ZArith Bool.
From Verif Require Import Base RuneWrite Segmenter.
Import ListNotations.
Open Scope Z_scope.

(* utf8.RuneError *)
Definition RuneError : Z := 65533.
Definition between (lo hi b : Z) : bool := (lo <=? b) && (b <=? hi).
Definition cont (b : Z) : bool := between 128 191 b.
(* utf8.RuneStart *)
Definition RuneStart (b : Z) : bool := negb (cont b).

(* The allowed second bytes by lead byte. *)
Definition second (b0 : Z) : Z * Z :=
  if b0 =? 224 then (160, 191) else if b0 =? 237 then (128, 159)
  else if b0 =? 240 then (144, 191) else if b0 =? 244 then (128, 143) else (128, 191).

(* utf8.DecodeRune and DecodeRuneInString: the rune and its width; (RuneError, 1) for ill-formed
   and (RuneError, 0) for empty input *)
Definition DecodeRune (s : list Z) : Z * Z :=
  match s with
  | [] => (RuneError, 0)
  | b0 :: t =>
      if b0 <? 128 then (b0, 1)
      else
        let '(l, h) := second b0 in
        if between 194 223 b0 then
          match t with
          | b1 :: _ => if between l h b1 then ((b0 - 192) * 64 + (b1 - 128), 2) else (RuneError, 1)
          | _ => (RuneError, 1)
          end
        else if between 224 239 b0 then
          match t with
          | b1 :: b2 :: _ => if between l h b1 && cont b2 then ((b0 - 224) * 4096 + (b1 - 128) * 64 + (b2 - 128), 3) else (RuneError, 1)
          | _ => (RuneError, 1)
          end
        else if between 240 244 b0 then
          match t with
          | b1 :: b2 :: b3 :: _ => if between l h b1 && cont b2 && cont b3
              then ((b0 - 240) * 262144 + (b1 - 128) * 4096 + (b2 - 128) * 64 + (b3 - 128), 4) else (RuneError, 1)
          | _ => (RuneError, 1)
          end
        else (RuneError, 1)
  end.

(* a Unicode scalar value (utf8.ValidRune) *)
Definition scalar (r : Z) : bool := between 0 55295 r || between 57344 1114111 r.
(* utf8.EncodeRune, bytes.Buffer.WriteRune, string([]rune) *)
Definition EncodeRune (r : Z) : list Z :=
  let r := if scalar r then r else RuneError in
  if r <? 128 then [r]
  else if r <? 2048 then [192 + r / 64; 128 + r mod 64]
  else if r <? 65536 then [224 + r / 4096; 128 + r / 64 mod 64; 128 + r mod 64]
  else [240 + r / 262144; 128 + r / 4096 mod 64; 128 + r / 64 mod 64; 128 + r mod 64].
Definition encode (rs : list Z) : list Z := concat (map EncodeRune rs).

(* uax.go:7-20.  The loop never changes i = 0: it ends at once or not at all; n bounds its rounds. *)
Fixpoint legal_loop (n : nat) (s : list Z) (i : Z) : res (Z * Z) :=
  match n with
  | 0%nat => NoFuel
  | S n' =>
      if i <? zlen s then
        let* b := lift (zget s i) in
        if RuneStart b then
          let* rest := lift (zslice s i (zlen s)) in
          if negb (fst (DecodeRune rest) =? RuneError) then Ok (i, i) else Ok (-1, i)
        else legal_loop n' s i
      else Ok (-1, i)
  end.
Definition PositionOfFirstLegalRune (n : nat) (s : list Z) : res (Z * list Z) :=
  let* (start, i) := legal_loop n s 0 in
  let* prefix := lift (zslice s 0 i) in Ok (start, prefix).

(* ---- Specification of C23 ---- *)
(* a legal rune starts here: the bytes begin with the encoding of a scalar value *)
Definition legal_here (s : list Z) : Prop := exists r t, scalar r = true /\ s = EncodeRune r ++ t.
Definition first_legal (s : list Z) (answer : Z * list Z) : Prop :=
  (fst answer = -1 /\ forall k, ~ legal_here (skipn k s)) \/
  (exists k, (k < length s)%nat /\ answer = (Z.of_nat k, firstn k s) /\ legal_here (skipn k s) /\ forall j, (j < k)%nat -> ~ legal_here (skipn j s)).
