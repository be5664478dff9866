(* SegText.v -- from the bytes of a text to the bytes of its segments. *)
From Coq Require Import List ZArith Lia Bool.
From Verif Require Import Base Utf8 RuneWrite Segmenter.
Import ListNotations.
Open Scope Z_scope.

(* ReadRune of the standard library (strings.Reader, bytes.Reader, bufio.Reader; contract): an
   undecodable byte is read as U+FFFD of size 1.  [n] bounds the number of runes. *)
Fixpoint read_runes (n : nat) (s : list Z) : list (Z * Z) :=
  match n with
  | O => []
  | S n => match s with
           | [] => []
           | _ => let (r, w) := DecodeRune s in (r, w) :: read_runes n (skipn (Z.to_nat w) s)
           end
  end.
Definition ReadRunes (s : list Z) : list (Z * Z) := read_runes (length s) s.

(* Bytes: segment/segment.go:238-244, one WriteRune after the other. *)
Fixpoint write_all (buf : list Z) (rs : list Z) : list Z :=
  match rs with
  | [] => buf
  | r :: t => write_all (buf ++ EncodeRune r) t
  end.
Definition Bytes {Q B : Type} (s : state Q B) : res (list Z) := let* rs := lift (Runes (rbuf s)) in Ok (write_all [] rs).
(* Buffer: segment/segment.go:174-178; the deprecated call has no effect. *)
Definition Buffer {Q B : Type} (buf : list Z) (max : Z) (s : state Q B) : res (state Q B) := if inUse s then Panic else Ok s.
(* Text: segment/segment.go:260-262, a conversion string([]rune). *)
Definition TextString {Q B : Type} (s : state Q B) : res (list Z) := let* rs := lift (Runes (rbuf s)) in Ok (encode rs).

(* The loop `for seg.Next() { out = append(out, seg.Bytes()) }`, at most n rounds. *)
Fixpoint byte_loop {Q B : Type} (O : qops Q) (step : B -> Z -> B * Z * list Z) (n : nat) (s : state Q B) : res (list (list Z) * bool * state Q B) :=
  match n with
  | 0%nat => Ok ([], false, s)
  | S n' => let* (b, s1) := Next O step s in
            if b then let* x := Bytes s1 in let* (xs, f, s2) := byte_loop O step n' s1 in Ok (x :: xs, f, s2)
            else Ok ([], true, s1)
  end.

(* A text with its undecodable bytes replaced by U+FFFD. *)
Inductive repaired : list Z -> list Z -> Prop :=
| rp_nil : repaired [] []
| rp_char r s t : scalar r = true -> repaired s t -> repaired (EncodeRune r ++ s) (EncodeRune r ++ t)
| rp_bad b s t : (forall r u, scalar r = true -> b :: s <> EncodeRune r ++ u) -> repaired s t -> repaired (b :: s) ([239; 191; 189] ++ t).
