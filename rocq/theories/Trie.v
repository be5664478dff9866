(* Trie.v -- the hash trie holding the left-hand sides of the bidi rules.
   Models bidi/trie/hashtrie.go function by function.  Pointers are uint8, categories int8 (all
   values that occur are small and positive).  Tracing and Stats are left out. *)
From Coq Require Import List ZArith Lia Bool.
From Verif Require Import Base.
Import ListNotations.
Open Scope Z_scope.

(* pointer arithmetic is modulo 256: hashtrie.go:10 *)
Definition u8 (x : Z) : Z := x mod 256.

(* tolerance: hashtrie.go:14 *)
Definition tolerance : nat := 60.

(* TinyHashTrie: hashtrie.go:19-29. *)
Record trie := mkt {
  t_frozen : bool; t_header : Z; t_span : Z; t_alpha : Z; t_size : Z; t_catcnt : Z;
  t_link : list Z; t_sib : list Z; t_ch : list Z }.

Definition with_link (t : trie) (x : list Z) : trie :=
  mkt (t_frozen t) (t_header t) (t_span t) (t_alpha t) (t_size t) (t_catcnt t) x (t_sib t) (t_ch t).
Definition with_sib (t : trie) (x : list Z) : trie :=
  mkt (t_frozen t) (t_header t) (t_span t) (t_alpha t) (t_size t) (t_catcnt t) (t_link t) x (t_ch t).
Definition with_ch (t : trie) (x : list Z) : trie :=
  mkt (t_frozen t) (t_header t) (t_span t) (t_alpha t) (t_size t) (t_catcnt t) (t_link t) (t_sib t) x.

(* Array accesses trie.link[p] etc., panicking outside of the arrays. *)
Definition link_at (t : trie) (p : Z) : res Z := lift (zget (t_link t) p).
Definition sib_at (t : trie) (p : Z) : res Z := lift (zget (t_sib t) p).
Definition ch_at (t : trie) (p : Z) : res Z := lift (zget (t_ch t) p).
Definition set_link (t : trie) (p v : Z) : res trie :=
  let* a := lift (zset (t_link t) p v) in Ok (with_link t a).
Definition set_sib (t : trie) (p v : Z) : res trie :=
  let* a := lift (zset (t_sib t) p v) in Ok (with_sib t a).
Definition set_ch (t : trie) (p v : Z) : res trie :=
  let* a := lift (zset (t_ch t) p v) in Ok (with_ch t a).

(* setInitialValues: hashtrie.go:51-61 (for 1 <= catcnt < size; larger counts panic in Go). *)
Definition init_ch (size catcnt header : Z) : list Z :=
  header :: map Z.of_nat (seq 1 (Z.to_nat catcnt)) ++ repeat 0 (Z.to_nat (size - catcnt - 1)).
Definition init_sib (size catcnt : Z) : list Z :=
  catcnt :: map Z.of_nat (seq 0 (Z.to_nat catcnt)) ++ repeat 0 (Z.to_nat (size - catcnt - 1)).

(* NewTinyHashTrie: hashtrie.go:33-49; None is the error result.  alpha is 0.61803*size rounded. *)
Definition NewTinyHashTrie (size catcnt0 : Z) : option trie :=
  if 50 <? catcnt0 then None
  else let catcnt := catcnt0 + 1 in
       let header := catcnt + 1 in
       Some (mkt false header (u8 (size - 2 * catcnt)) (u8 ((61803 * size + 50000) / 100000)) size catcnt
               (repeat 0 (Z.to_nat size)) (init_sib size catcnt) (init_ch size catcnt header)).

(* trie.correct: hashtrie.go:222-227. *)
Definition correct (t : trie) (c : Z) : Z := if c =? 0 then t_catcnt t - 1 else c.

(* The loop over trial header locations: hashtrie.go:107-119. *)
Fixpoint trial_loop (t : trie) (c h : Z) (trys : nat) : res Z :=
  match trys with
  | O => Panic (* abort find *)
  | S k =>
      let h := if h =? u8 (t_size t - t_catcnt t) then u8 (t_catcnt t + 1) else u8 (h + 1) in
      let* a := ch_at t h in
      if a =? 0
      then let* b := ch_at t (u8 (h + c)) in
           if b =? 0 then Ok h else trial_loop t c h k
      else trial_loop t c h k
  end.

(* The nominal header position with its check: hashtrie.go:101-105 and 149-153. *)
Definition nominal (t : trie) (n : Z) : res Z :=
  let x := u8 (u8 n * t_alpha t) mod t_span t in
  let h := u8 (x + t_catcnt t + 1) in
  if (h <=? t_catcnt t) || (t_size t + t_catcnt t <? h) then Panic else Ok h.

(* trie.insertFirstbornChildAndProgress: hashtrie.go:99-130. *)
Definition insertFirstborn (t : trie) (p c n : Z) : res (Z * trie) :=
  let* h0 := nominal t n in
  let* h := trial_loop t c h0 tolerance in
  let* t := set_link t p h in
  let* t := set_link t h p in
  let p := u8 (h + c) in
  let* t := set_ch t h (t_header t) in
  let* t := set_ch t p c in
  let* t := set_sib t h p in
  let* t := set_sib t p h in
  let* t := set_link t p 0 in
  Ok (p, t).

(* The search for the sibling: hashtrie.go:135-137. *)
Fixpoint sib_loop (t : trie) (h q : Z) (fuel : nat) : res Z :=
  match fuel with
  | O => NoFuel
  | S k => let* s := sib_at t h in if q <? s then sib_loop t s q k else Ok h
  end.

(* trie.insertChildIntoFamily: hashtrie.go:133-143. *)
Definition insertChild (t : trie) (p q c : Z) : res (Z * trie) :=
  let* h0 := link_at t p in
  let* h := sib_loop t h0 q 256 in
  let* s := sib_at t h in
  let* t := set_sib t q s in
  let* t := set_sib t h q in
  let* t := set_ch t q c in
  let* t := set_link t q 0 in
  Ok (q, t).

(* The walk over the family: hashtrie.go:175-178. *)
Fixpoint family_loop (t : trie) (lp r delta : Z) (fuel : nat) : res Z :=
  match fuel with
  | O => NoFuel
  | S k =>
      let* a := ch_at t (u8 (r + delta)) in
      if a =? 0
      then let* s := sib_at t r in if s =? lp then Ok r else family_loop t lp s delta k
      else Ok r
  end.

(* The loop over new homes: hashtrie.go:161-182. *)
Fixpoint home_loop (t : trie) (lp c h : Z) (trys : nat) : res Z :=
  match trys with
  | O => Panic (* abort find *)
  | S k =>
      let h := if h <? u8 (t_size t - t_catcnt t) then u8 (h + 1) else u8 (t_catcnt t + 1) in
      let* a := ch_at t (u8 (h + c)) in
      if negb (a =? 0) then home_loop t lp c h k
      else let delta := u8 (h - lp) in
           let* r := family_loop t lp lp delta 256 in
           let* b := ch_at t (u8 (r + delta)) in
           if b =? 0 then Ok h else home_loop t lp c h k
  end.

(* The loop moving the family: hashtrie.go:190-202. *)
Fixpoint move_loop (t : trie) (r delta : Z) (fuel : nat) : res trie :=
  match fuel with
  | O => NoFuel
  | S k =>
      let rd := u8 (r + delta) in
      let* s := sib_at t r in
      let* t := set_sib t rd (u8 (s + delta)) in
      let* a := ch_at t r in
      let* t := set_ch t rd a in
      let* t := set_ch t r 0 in
      let* l := link_at t r in
      let* t := set_link t rd l in
      let* l := link_at t r in
      let* t := (if l =? 0 then Ok t else set_link t l rd) in
      let* r := sib_at t r in
      let* a := ch_at t r in
      if a =? 0 then Ok t else move_loop t r delta k
  end.

(* trie.moveFamily: hashtrie.go:145-204. *)
Definition moveFamily (t : trie) (p c n : Z) : res (Z * trie) :=
  let* h0 := nominal t n in
  let* lp := link_at t p in
  let* h := home_loop t lp c h0 tolerance in
  let* t := move_loop t lp (u8 (h - lp)) 256 in
  Ok (u8 (h + c), t).

(* trie.advanceToChild: hashtrie.go:77-97. *)
Definition advanceToChild (t : trie) (p c n : Z) : res (Z * trie) :=
  let* lp := link_at t p in
  if lp =? 0
  then if t_frozen t then Ok (0, t) else insertFirstborn t p c n
  else let q := u8 (lp + c) in
       let* a := ch_at t q in
       if a =? c then Ok (q, t)
       else if t_frozen t then Ok (0, t)
       else let* (q, t) := (if a =? 0 then Ok (q, t) else moveFamily t p c n) in
            insertChild t p q c.

(* The loop of AllocPositionForWord: hashtrie.go:68-73. *)
Fixpoint alloc_loop (t : trie) (p n : Z) (buf : list Z) : res (Z * trie) :=
  match buf with
  | [] => Ok (p, t)
  | c :: rest =>
      let* (p, t) := advanceToChild t p (correct t c) (n + 1) in
      alloc_loop t p (n + 1) rest
  end.

(* trie.AllocPositionForWord: hashtrie.go:65-75. *)
Definition AllocPositionForWord (t : trie) (buf : list Z) : res (Z * trie) :=
  match buf with
  | [] => Panic
  | c :: rest => alloc_loop t (correct t c) 0 rest
  end.

(* trie.Freeze: hashtrie.go:207-210. *)
Definition Freeze (t : trie) : trie :=
  mkt true (t_header t) (t_span t) (t_alpha t) (t_size t) (t_catcnt t) (t_link t) [] (t_ch t).

(* Iterator: hashtrie.go:232-236; a nil trie ends the iteration. *)
Record titer := mkti { ti_live : bool; ti_pos : Z; ti_n : Z }.
Definition Iterator0 : titer := mkti true 0 0.

(* ti.Next: hashtrie.go:240-256, over a frozen trie (a lookup does not change it); the argument is
   an int8, converted to a byte. *)
Definition Next (t : trie) (ti : titer) (c : Z) : res (Z * titer) :=
  if negb (ti_live ti) then Ok (0, ti)
  else if ti_n ti =? 0
  then let p := correct t (u8 c) in
       let* a := ch_at t p in Ok (a, mkti true p 1)
  else let cc := correct t (u8 c) in
       let* (p, _) := advanceToChild t (ti_pos ti) cc (ti_n ti) in
       Ok (p, mkti (negb (p =? 0)) p (ti_n ti)).
