(* RuneWrite.v -- model of the helper runewrite in segment/segment.go:675-753: the buffer holding
   the current segment.  [backing] = None is Go nil (not backed: runes are copied to [output]).
   Capacities are tracked explicitly; a slice of the backing store beyond its length is a panic
   (None), i.e. the client's slice is assumed to have no spare capacity. *)
From Coq Require Import List ZArith Lia Bool.
From Verif Require Import Base.
Import ListNotations.
Open Scope Z_scope.

(* segment.go:98 *)
Definition startBufSize : Z := 4096.

(* segment.go:675-681.  isBacked is `backing <> None` (Reset keeps them in step);
   outnil: output == nil. *)
Record runewrite := mkrw {
  maxSegLen : Z; backing : option (list Z); rstart : Z; rend : Z;
  output : list Z; outcap : Z; outnil : bool }.

(* zero value of the struct *)
Definition rw_zero : runewrite := mkrw 0 None 0 0 [] 0 true.

(* segment.go:683-711.  Returns the new buffer and whether the rune was written (false =
   ErrTooLong). *)
Definition WriteRune (w : runewrite) (r : Z) : runewrite * bool :=
  match backing w with
  | Some b => (mkrw (maxSegLen w) (Some b) (rstart w) (rend w + 1) (output w) (outcap w) (outnil w), true)
  | None =>
      if outcap w =? zlen (output w) then
        if outcap w >=? maxSegLen w then (w, false)
        else
          let newSize := Z.max (outcap w + startBufSize) (zlen (output w) + 1) in
          let newSize := if newSize >? maxSegLen w then maxSegLen w else newSize in
          (mkrw (maxSegLen w) None (rstart w) (rend w) (output w ++ [r]) newSize false, true)
      else (mkrw (maxSegLen w) None (rstart w) (rend w) (output w ++ [r]) (outcap w) false, true)
  end.

(* segment.go:713-718 *)
Definition Runes (w : runewrite) : option (list Z) :=
  match backing w with
  | Some b => zslice b (rstart w) (rend w)
  | None => Some (output w)
  end.

(* segment.go:720-727 *)
Definition SetMark (w : runewrite) : runewrite :=
  match backing w with
  | Some b => mkrw (maxSegLen w) (Some b) (rend w) (rend w) (output w) (outcap w) (outnil w)
  | None => mkrw (maxSegLen w) None (rstart w) (rend w) [] (outcap w) (outnil w)
  end.

(* segment.go:729-746; the argument None is Go nil *)
Definition Reset (w : runewrite) (b : option (list Z)) : runewrite :=
  let out := if outcap w >? 0 then [] else output w in
  match b with
  | None => if outnil w
            then mkrw (maxSegLen w) None 0 0 [] startBufSize false
            else mkrw (maxSegLen w) None 0 0 out (outcap w) false
  | Some b => mkrw (maxSegLen w) (Some b) 0 0 out (outcap w) (outnil w)
  end.
