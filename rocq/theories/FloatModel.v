(** Model of the floating point expressions of src/libzt/zt_random.h and src/libzt/zt_time.c.
    A finite non-negative binary floating point number is its value, a rational number.  An operation is the exact operation followed by [rnd p]: rounding to p significant bits, to nearest, ties to even
    (IEEE 754, double: p = 53, float: p = 24).  Exponents are unbounded: the numbers here are 0 or between 2^-64 and 2^64, far from underflow and overflow. *)
From Coq Require Export QArith Qround Qpower.
From Verif Require Import Prelude RandModel TimeModel.
Local Open Scope Q_scope.

(** the exponent of the leading bit of x > 0 *)
Definition lead (x : Q) : Z := let k := (Z.log2 (Qnum x) - Z.log2 (QDen x))%Z in if Qle_bool (2 ^ k)%Q x then k else (k - 1)%Z.
Definition nearest (y : Q) : Z :=
  let q := Qfloor y in match ((y - inject_Z q) ?= (1 # 2))%Q with Lt => q | Gt => (q + 1)%Z | Eq => if Z.even q then q else (q + 1)%Z end.
Definition rnd (p : Z) (x : Q) : Q :=
  if Qle_bool x 0 then 0 else let e := (lead x - (p - 1))%Z in inject_Z (nearest (x / 2 ^ e)) * 2 ^ e.

(* zt_random.h:22: zt_random_uint32(state)*(1.0/4294967295.0), the integer is converted to double *)
Definition random_float (now : Z) (s : rstate) : outcome (Q * rstate) :=
  ' (v, s) <- uint32 now s ;; Ok (rnd 53 (rnd 53 (inject_Z v) * rnd 53 (1 / 4294967295)), s).
(* zt_random.h:25: (zt_random_uint32(state) + 0.5)*(1.0/4294967296.0) *)
Definition random_float00 (now : Z) (s : rstate) : outcome (Q * rstate) :=
  ' (v, s) <- uint32 now s ;; Ok (rnd 53 (rnd 53 (rnd 53 (inject_Z v) + (1 # 2)) * rnd 53 (1 / 4294967296)), s).
(* zt_random.h:28: zt_random_uint32(state)*(1.0/4294967296.0) *)
Definition random_float10 (now : Z) (s : rstate) : outcome (Q * rstate) :=
  ' (v, s) <- uint32 now s ;; Ok (rnd 53 (rnd 53 (inject_Z v) * rnd 53 (1 / 4294967296)), s).

(* zt_time.c:92 and 93: (float) (tv_sec + tv_usec / 1000000.0), both converted to double; for times >= 0 *)
Definition to_float (t : timeval) : Q := rnd 24 (rnd 53 (rnd 53 (inject_Z (tv_sec t)) + rnd 53 (rnd 53 (inject_Z (tv_usec t)) / 1000000))).
(* zt_time.c:85-95 zt_time_result_to_elapsed: usr, sys, total; + is that of float *)
Definition result_to_elapsed (usr_time sys_time : timeval) : Q * Q * Q :=
  let usr := to_float usr_time in let sys := to_float sys_time in (usr, sys, rnd 24 (usr + sys)).
