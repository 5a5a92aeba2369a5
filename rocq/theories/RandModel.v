(** Model of src/libzt/zt_random.c.  uint32_t values are Z in [0, 2^32); every access to mt[] and seed[] is checked. *)
From Verif Require Import Prelude.
Open Scope Z_scope.

Definition M32 : Z := 4294967296.
Definition RECURRENCE : nat := 624.
Definition MIDDLE_WORD : nat := 397.
Definition MATRIX_A : Z := 0x9908b0df.
Definition UPPER_MASK : Z := 0x80000000.
Definition LOWER_MASK : Z := 0x7fffffff.
Definition INITIALIZED : Z := 0xD15EA5E.
(* zt_random.h:11-15 *)
Record rstate := mkr { mt : list Z; mti : nat; initialized : Z }.

Definition rd (l : list Z) (i : nat) : outcome Z := match nth_error l i with Some v => Ok v | None => UB end.
Definition wr (l : list Z) (i : nat) (v : Z) : outcome (list Z) := if Nat.ltb i (length l) then Ok (upd l i v) else UB.

(* zt_random.c:80-89: the loop body for mti = i, n iterations left *)
Fixpoint seed_loop (n i : nat) (l : list Z) {struct n} : outcome (list Z) :=
  match n with
  | O => Ok l
  | S n =>
      p <- rd l (i - 1) ;;
      l <- wr l i (Z.land ((1812433253 * Z.lxor p (Z.shiftr p 30) + Z.of_nat i) mod M32) 0xffffffff) ;;
      seed_loop n (S i) l
  end.
(* zt_random.c:73-92 zt_random_srandom *)
Definition srandom (s : rstate) (seed : Z) : outcome rstate :=
  l <- wr (mt s) 0 (Z.land seed 0xffffffff) ;;
  l <- seed_loop (RECURRENCE - 1) 1 l ;;
  Ok (mkr l RECURRENCE INITIALIZED).

Definition mag01 (b : Z) : Z := if b =? 0 then 0 else MATRIX_A.
(* zt_random.c:109-110, 114-115, 118-119: mt[k] from mt[k], mt[k1] and mt[km] *)
Definition gen (l : list Z) (k k1 km : nat) : outcome (list Z) :=
  a <- rd l k ;; b <- rd l k1 ;; c <- rd l km ;;
  let y := Z.lor (Z.land a UPPER_MASK) (Z.land b LOWER_MASK) in
  wr l k (Z.lxor (Z.lxor c (Z.shiftr y 1)) (mag01 (Z.land y 1))).
(* zt_random.c:108-111 *)
Fixpoint gen1 (n kk : nat) (l : list Z) {struct n} : outcome (list Z) :=
  match n with O => Ok l | S n => l <- gen l kk (kk + 1) (kk + MIDDLE_WORD) ;; gen1 n (S kk) l end.
(* zt_random.c:113-116 *)
Fixpoint gen2 (n kk : nat) (l : list Z) {struct n} : outcome (list Z) :=
  match n with O => Ok l | S n => l <- gen l kk (kk + 1) (kk - (RECURRENCE - MIDDLE_WORD)) ;; gen2 n (S kk) l end.
(* zt_random.c:127-130 *)
Definition temper (y : Z) : Z :=
  let y := Z.lxor y (Z.shiftr y 11) in
  let y := Z.lxor y (Z.land (Z.shiftl y 7 mod M32) 0x9d2c5680) in
  let y := Z.lxor y (Z.land (Z.shiftl y 15 mod M32) 0xefc60000) in
  Z.lxor y (Z.shiftr y 18).
(* zt_random.c:105-122 *)
Definition refill (s : rstate) : outcome rstate :=
  if Nat.leb RECURRENCE (mti s) then
    l <- gen1 (RECURRENCE - MIDDLE_WORD) 0 (mt s) ;;
    l <- gen2 (RECURRENCE - 1 - (RECURRENCE - MIDDLE_WORD)) (RECURRENCE - MIDDLE_WORD) l ;;
    l <- gen l (RECURRENCE - 1) 0 (MIDDLE_WORD - 1) ;;
    Ok (mkr l 0 (initialized s))
  else Ok s.
(* zt_random.c:94-133 zt_random_uint32; [now] is (uint32_t)time(NULL) *)
Definition uint32 (now : Z) (s : rstate) : outcome (Z * rstate) :=
  s <- (if initialized s =? INITIALIZED then Ok s else srandom s now) ;;
  s <- refill s ;;
  y <- rd (mt s) (mti s) ;;
  Ok (temper y, mkr (mt s) (S (mti s)) (initialized s)).

(* zt_random.c:43-56; state of the loop: mt, i, j *)
Fixpoint init1 (k : nat) (l : list Z) (seed : list Z) (i j : nat) {struct k} : outcome (list Z * nat) :=
  match k with
  | O => Ok (l, i)
  | S k =>
      a <- rd l i ;; p <- rd l (i - 1) ;; s <- rd seed j ;;
      l <- wr l i ((Z.lxor a (Z.lxor p (Z.shiftr p 30) * 1664525) + s + Z.of_nat j) mod M32) ;;
      let i := S i in let j := S j in
      ' (l, i) <- (if Nat.leb RECURRENCE i then z <- rd l (RECURRENCE - 1) ;; l <- wr l 0 z ;; Ok (l, 1%nat) else Ok (l, i)) ;;
      init1 k l seed i (if Nat.leb (length seed) j then O else j)
  end.
(* zt_random.c:58-68 *)
Fixpoint init2 (k : nat) (l : list Z) (i : nat) {struct k} : outcome (list Z) :=
  match k with
  | O => Ok l
  | S k =>
      a <- rd l i ;; p <- rd l (i - 1) ;;
      l <- wr l i ((Z.lxor a (Z.lxor p (Z.shiftr p 30) * 1566083941) - Z.of_nat i) mod M32) ;;
      let i := S i in
      ' (l, i) <- (if Nat.leb RECURRENCE i then z <- rd l (RECURRENCE - 1) ;; l <- wr l 0 z ;; Ok (l, 1%nat) else Ok (l, i)) ;;
      init2 k l i
  end.
(* zt_random.c:27-71 zt_random_initstate; seed is the whole array, len its length *)
Definition initstate (s : rstate) (seed : list Z) : outcome rstate :=
  s <- srandom s 19650218 ;;
  ' (l, i) <- init1 (Nat.max RECURRENCE (length seed)) (mt s) seed 1 0 ;;
  l <- init2 (RECURRENCE - 1) l i ;;
  l <- wr l 0 0x80000000 ;;
  Ok (mkr l (mti s) (initialized s)).
