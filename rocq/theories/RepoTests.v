(* RepoTests.v -- the tests of the repository for the bidi resolver, replayed on the model
   (bidi/bidi_test.go:297-538).  They guard the model, they are not claims. *)
From Coq Require Import List ZArith Lia Bool String Ascii.
From Verif Require Import Base Scrap Brackets Trie Rules RuleProofs Reorder Scanner ScannerProofs Resolver Utf8.
Import ListNotations.
Open Scope Z_scope.

(* The bidi properties of the characters in the tests. *)
Definition tprops (r : Z) : Z * Z :=
  if between 48 57 r then (cEN, 0) else if r =? 32 then (cWS, 0)
  else if r =? 40 then (cON, 1) else if r =? 41 then (cON, 2)
  else if (r =? 44) || (r =? 46) then (cCS, 0)
  else if between 60 63 r then (cON, 0) else if between 8216 8221 r then (cON, 0) else (cL, 0).
Definition isupper (r : Z) : bool := between 65 90 r.

(* A text; the characters q and Q stand for the quotation marks. *)
Fixpoint text (s : string) : list (Z * Z) :=
  match s with
  | EmptyString => []
  | String a t =>
      let r := Z.of_nat (nat_of_ascii a) in
      (if r =? 113 then (8220, 3) else if r =? 81 then (8221, 3) else (r, 1)) :: text t
  end.

Definition resolve (r2l : bool) (s : string) : res (levels * list scrap) :=
  ResolveParagraph 400 (mkmode r2l true false) tprops isupper None (text s).
Definition view (s : scrap) := (clz s, sl s, sr s).
Definition scraps (r : res (levels * list scrap)) : list scrap := match r with Ok (l, []) => lv_scraps l | _ => [] end.
Definition child (k : nat) (s : scrap) : list scrap := nth k (kids s) [].

(* TestSimple *)
Example t_simple : map view (scraps (resolve false "hello 123.45")) = [(cLRI, 0, 0); (cL, 0, 12); (cPDI, 12, 12)].
Proof. vm_compute. reflexivity. Qed.

(* TestBrackets *)
Example t_brackets : map view (scraps (resolve false "hello (WORLD)")) =
  [(cLRI, 0, 0); (cL, 0, 7); (cR, 7, 12); (cL, 12, 13); (cPDI, 13, 13)].
Proof. vm_compute. reflexivity. Qed.

(* TestIRS, TestIRSLoner *)
Example t_irs : let ss := scraps (resolve false "hel<lo WORLD=") in
  map view ss = [(cLRI, 0, 0); (cL, 0, 13); (cPDI, 13, 13)] /\ map (fun s => List.length (kids s)) ss = [0; 1; 0]%nat.
Proof. vm_compute. auto. Qed.
Example t_irs_loner : map view (scraps (resolve false "hel<lo WORLD")) =
  [(cLRI, 0, 0); (cL, 0, 6); (cR, 6, 12); (cPDI, 12, 12)].
Proof. vm_compute. reflexivity. Qed.

(* TestResolveCar1 to 4 *)
Example t_car1 : map view (scraps (resolve false "car means CAR.")) =
  [(cLRI, 0, 0); (cL, 0, 10); (cR, 10, 13); (cL, 13, 14); (cPDI, 14, 14)].
Proof. vm_compute. reflexivity. Qed.
Example t_car2 : let ss := scraps (resolve false "<car MEANS CAR.=") in
  map view ss = [(cLRI, 0, 0); (cL, 0, 16); (cPDI, 16, 16)] /\
  map (fun s => map (map view) (kids s)) ss = [[]; [[(cRLI, 0, 1); (cL, 1, 4); (cR, 4, 15); (cPDI, 15, 16)]]; []].
Proof. vm_compute. auto. Qed.
Definition said : string := "he said q<car MEANS CAR=.Q q<IT DOES=,Q she agreed.".
Example t_car3 : let ss := scraps (resolve false said) in
  map view ss = [(cLRI, 0, 0); (cL, 0, 59); (cPDI, 59, 59)] /\
  map (map view) (kids (nth 1 ss scrap0)) =
    [[(cRLI, 11, 12); (cL, 12, 15); (cR, 15, 25); (cPDI, 25, 26)]; [(cRLI, 34, 35); (cR, 35, 42); (cPDI, 42, 43)]].
Proof. vm_compute. auto. Qed.
Example t_car4 : let ss := scraps (resolve true "DID YOU SAY Q>he said q<car MEANS CAR=Q=Q?") in
  map view ss = [(cRLI, 0, 0); (cR, 0, 50); (cPDI, 50, 50)] /\
  let sub := child 0 (nth 1 ss scrap0) in
  map view sub = [(cLRI, 15, 16); (cL, 16, 45); (cPDI, 45, 46)] /\
  map view (child 0 (nth 1 sub scrap0)) = [(cRLI, 27, 28); (cL, 28, 31); (cR, 31, 41); (cPDI, 41, 42)].
Proof. vm_compute. auto. Qed.

(* TestOrderCar1 to 3 *)
Definition ordered (r : res (levels * list scrap)) :=
  match r with
  | Ok (l, _) => option_map (map (fun r => (r_dir r, r_len r, map view (r_scraps r)))) (Reorder l)
  | _ => None
  end.
Example t_order1 : ordered (resolve false "car means CAR.") =
  Some [(L2R, 10, [(cL, 0, 10)]); (R2L, 3, [(cR, 10, 13)]); (L2R, 1, [(cL, 13, 14)])].
Proof. vm_compute. reflexivity. Qed.
Example t_order2 : ordered (resolve false "<car MEANS CAR.=") =
  Some [(R2L, 12, [(cRLI, 0, 1); (cR, 4, 15)]); (L2R, 3, [(cL, 1, 4)]); (R2L, 1, [(cPDI, 15, 16)])].
Proof. vm_compute. reflexivity. Qed.
Example t_order3 : option_map (map fst) (ordered (resolve false said)) =
  Some [(L2R, 11); (R2L, 11); (L2R, 3); (R2L, 1); (L2R, 8); (R2L, 9); (L2R, 16)].
Proof. vm_compute. reflexivity. Qed.
