(* WidthContext.v -- the contexts that package uax11 offers to its clients.
   Models uax11/width.go:111-135 and 216-233; the rest of width.go is in Width.v. *)
From Coq Require Import List ZArith Bool.
From Verif Require Import Base Width.
Import ListNotations.
Open Scope Z_scope.

Section Oracles.
Context (Zzzz : Z) (script_of : Z -> Z) (asian_script : Z -> bool) (matches : Z -> bool).
(* the codes of script "Hant", of locale "zh-Hant" and of locale "en-US" *)
Context (Hant zh_Hant en_US : Z).

(* width.go:112, 117-125 *)
Definition makeEastAsianContext : context := mkctx true Hant zh_Hant (Some ToWide).

(* width.go:216-233; detected is the answer of jibber_jabber.DetectIETF, None for an error *)
Definition ContextFromEnvironment (detected : option Z) : context :=
  let userLocale := match detected with None => en_US | Some l => l end in
  findResolver Zzzz script_of asian_script matches userLocale (mkctx false (script_of userLocale) userLocale None).
End Oracles.

(* What a client does with a context between two calls: it sets the exported fields (width.go:105-107); the
   resolver is not exported. *)
Definition refill (force : bool) (script locale : Z) (c : context) : context := mkctx force script locale (resolve c).
