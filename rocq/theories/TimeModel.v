(** Model of src/libzt/zt_time.c and of the macro usleep of zt_time.h (the float reporting is in FloatModel.v). *)
From Verif Require Export Prelude.
Open Scope Z_scope.

(** struct timeval: tv_sec and tv_usec are long (64 bit). *)
Record timeval := mktv { tv_sec : Z; tv_usec : Z }.

(** Memory holding timevals, addressed by location (pointers may alias). *)
Definition tmem := nat -> timeval.
Definition tset (m : tmem) (p : nat) (v : timeval) : tmem :=
  fun q => if Nat.eqb q p then v else m q.
Definition set_sec (m : tmem) (p : nat) (s : Z) : tmem := tset m p (mktv s (tv_usec (m p))).
Definition set_usec (m : tmem) (p : nat) (u : Z) : tmem := tset m p (mktv (tv_sec (m p)) u).

(** long arithmetic: overflow is undefined *)
Definition in_long (v : Z) : bool := (- 9223372036854775808 <=? v) && (v <=? 9223372036854775807).
Definition lck (v : Z) : outcome Z := if in_long v then Ok v else UB.

(** zt_time.c:27-30 : while (at->tv_usec >= 1000000) { at->tv_sec++; at->tv_usec -= 1000000; } *)
Fixpoint carry (fuel : nat) (m : tmem) (p : nat) : outcome tmem :=
  if 1000000 <=? tv_usec (m p) then
    match fuel with
    | O => Loop
    | S f =>
        s <- lck (tv_sec (m p) + 1) ;;
        let m1 := set_sec m p s in
        u <- lck (tv_usec (m1 p) - 1000000) ;;
        carry f (set_usec m1 p u) p
    end
  else Ok m.

(** zt_time.c:42-45 (and 56-59, same effect): while (st->tv_usec < 0) { st->tv_sec--; st->tv_usec += 1000000; } *)
Fixpoint borrow (fuel : nat) (m : tmem) (p : nat) : outcome tmem :=
  if tv_usec (m p) <? 0 then
    match fuel with
    | O => Loop
    | S f =>
        s <- lck (tv_sec (m p) - 1) ;;
        let m1 := set_sec m p s in
        u <- lck (tv_usec (m1 p) + 1000000) ;;
        borrow f (set_usec m1 p u) p
    end
  else Ok m.

(** zt_time.c:22-33 zt_add_time *)
Definition zt_add_time (fuel : nat) (m : tmem) (at_ t1 t2 : nat) : outcome tmem :=
  s <- lck (tv_sec (m t1) + tv_sec (m t2)) ;;
  let m1 := set_sec m at_ s in
  u <- lck (tv_usec (m1 t1) + tv_usec (m1 t2)) ;;
  carry fuel (set_usec m1 at_ u) at_.

(** zt_time.c:36-48 zt_sub_time *)
Definition zt_sub_time (fuel : nat) (m : tmem) (st t1 t2 : nat) : outcome tmem :=
  s <- lck (tv_sec (m t1) - tv_sec (m t2)) ;;
  let m1 := set_sec m st s in
  u <- lck (tv_usec (m1 t1) - tv_usec (m1 t2)) ;;
  borrow fuel (set_usec m1 st u) st.

(** zt_time.c:51-62 zt_diff_time *)
Definition zt_diff_time (fuel : nat) (m : tmem) (dt t1 t2 : nat) : outcome tmem :=
  s <- lck (tv_sec (m t2) - tv_sec (m t1)) ;;
  let m1 := set_sec m dt s in
  u <- lck (tv_usec (m1 t2) - tv_usec (m1 t1)) ;;
  borrow fuel (set_usec m1 dt u) dt.

(** zt_time.c:67-77 zt_cmp_time *)
Definition zt_cmp_time (m : tmem) (t1 t2 : nat) : outcome Z :=
  t <- lck (tv_sec (m t1) - tv_sec (m t2)) ;;
  if negb (t =? 0) then Ok t
  else lck (tv_usec (m t1) - tv_usec (m t2)).

(** zt_time.c:116-146 zt_time.  The function under test is a state transformer [test] of the world with a result, [has_test] is test != NULL;
    [rusage] is getrusage: the user and the system time used up to the call, which itself may take time (it changes the world). *)
Definition ick (v : Z) : outcome Z := if v <=? 2147483647 then Ok v else UB.
Section ZtTime.
  Context {S R : Type} (test : S -> S * R) (rusage : S -> S * (timeval * timeval)).
  (** zt_time.c:128-132: for (i = 0; i <= n; i++) ret = test(data); *)
  Fixpoint time_loop (fuel : nat) (i n : Z) (st : S) (ret : option R) {struct fuel} : outcome (S * option R) :=
    if i <=? n then
      match fuel with
      | O => Loop
      | Datatypes.S fuel => let '(st, r) := test st in i <- ick (i + 1) ;; time_loop fuel i n st (Some r)
      end
    else Ok (st, ret).
  Definition time_calls (fuel : nat) (has_test : bool) (n : Z) (st : S) : outcome (S * option R) :=
    if has_test && negb (n =? 0) then time_loop fuel 0 n st None else Ok (st, None).
  (** a struct time_result at address p (zt_time.h:31-34) is the time used by the system at p and the time used by the user at p + 1.
      The static _calibration_time (zt_time.c:97) is at address 0, the locals rbefore and rafter at 2 and 4: the user time, then the system time. *)
  Definition zt_time (fuel : nat) (m : tmem) (has_test : bool) (n : Z) (tv : nat) (st : S) : outcome (tmem * S * option R) :=
    let '(st, (u, s)) := rusage st in
    let m := tset (tset m 2%nat u) 3%nat s in
    ' (st, ret) <- time_calls fuel has_test n st ;;
    let '(st, (u, s)) := rusage st in
    let m := tset (tset m 4%nat u) 5%nat s in
    m <- zt_diff_time fuel m (tv + 1) 2 4 ;;
    m <- zt_diff_time fuel m tv 3 5 ;;
    m <- zt_sub_time fuel m (tv + 1) (tv + 1) 1 ;;
    m <- zt_sub_time fuel m tv tv 0 ;;
    Ok (m, st, ret).
  (** zt_time.c:99-103 zt_time_calibrate *)
  Definition zt_time_calibrate (fuel : nat) (m : tmem) (st : S) : outcome (tmem * S) :=
    ' (m, st, _) <- zt_time fuel m false 0 0 st ;; Ok (m, st).
End ZtTime.

(** zt_time.h:58-67 the macro usleep, which selects for the time [delay]; its argument is pasted: a single operand x, or a sum a + b *)
Definition usleep (x : Z) : timeval := mktv (Z.quot x 1000000) (Z.rem x 1000000).
Definition usleep_sum (a b : Z) : timeval := let usec := a + b in mktv (a + Z.quot b 1000000) (Z.rem usec 1000000).
