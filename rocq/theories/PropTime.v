(** C05, C45: time arithmetic and the timing harness (zt_time.c). *)
From Verif Require Import TimeModel TimeProofs.
Open Scope Z_scope.

(** The pointers [a], [t1], [t2] may alias each other. *)
Theorem C05_add_time : forall m a t1 t2, normal (m t1) -> normal (m t2) ->
  longp (tv_sec (m t1) + tv_sec (m t2)) -> longp (tv_sec (m t1) + tv_sec (m t2) + 1) ->
  exists m', zt_add_time 1 m a t1 t2 = Ok m' /\
    usecs (m' a) = usecs (m t1) + usecs (m t2) /\ normal (m' a) /\ only_changed a m m'.
Proof. exact add_correct. Qed.
Print Assumptions C05_add_time.

(** Also for un-normalised operands, after however many carries. *)
Theorem C05_add_time_any : forall fuel m a t1 t2 m', 0 <= tv_usec (m t1) + tv_usec (m t2) ->
  zt_add_time fuel m a t1 t2 = Ok m' ->
  usecs (m' a) = usecs (m t1) + usecs (m t2) /\ normal (m' a) /\ only_changed a m m'.
Proof. exact add_any. Qed.
Print Assumptions C05_add_time_any.

Theorem C05_sub_time : forall m a t1 t2, normal (m t1) -> normal (m t2) ->
  longp (tv_sec (m t1) - tv_sec (m t2)) -> longp (tv_sec (m t1) - tv_sec (m t2) - 1) ->
  exists m', zt_sub_time 1 m a t1 t2 = Ok m' /\
    usecs (m' a) = usecs (m t1) - usecs (m t2) /\ normal (m' a) /\ only_changed a m m'.
Proof. exact sub_correct. Qed.
Print Assumptions C05_sub_time.

Theorem C05_diff_time : forall m a t1 t2, normal (m t1) -> normal (m t2) ->
  longp (tv_sec (m t2) - tv_sec (m t1)) -> longp (tv_sec (m t2) - tv_sec (m t1) - 1) ->
  exists m', zt_diff_time 1 m a t1 t2 = Ok m' /\
    usecs (m' a) = usecs (m t2) - usecs (m t1) /\ normal (m' a) /\ only_changed a m m'.
Proof. exact diff_correct. Qed.
Print Assumptions C05_diff_time.

Theorem C05_cmp_time : forall m t1 t2, normal (m t1) -> normal (m t2) ->
  longp (tv_sec (m t1) - tv_sec (m t2)) ->
  exists r, zt_cmp_time m t1 t2 = Ok r /\ Z.sgn r = Z.sgn (usecs (m t1) - usecs (m t2)).
Proof. exact cmp_correct. Qed.
Print Assumptions C05_cmp_time.

Example C05_ex : let m := fun p => match p with O => mktv 3 900000 | _ => mktv (-2) 200000 end in
  normal (m O) /\ normal (m 1%nat) /\ longp (tv_sec (m O) + tv_sec (m 1%nat) + 1) /\
  (exists m', zt_add_time 1 m O O 1 = Ok m' /\ m' O = mktv 2 100000) /\
  (exists m', zt_sub_time 1 m 1 1 O = Ok m' /\ m' 1%nat = mktv (-6) 300000) /\
  zt_cmp_time m O 1 = Ok 5.
Proof.
  cbv zeta. unfold normal, longp. cbn [tv_sec tv_usec].
  repeat split; try lia; eexists; split; reflexivity.
Qed.

(** C45: what the harness actually does: n+1 calls for n > 0 (and no call for n <= 0), for every n below INT_MAX; the last result is returned. *)
Theorem C45_zt_time_actual_partial : forall S R (test : S -> S * R) n st fuel, n < 2147483647 -> (Z.to_nat (n + 1) <= fuel)%nat ->
  time_calls test fuel true n st =
  let k := if n <=? 0 then O else Z.to_nat (n + 1) in
  Ok (fst (run_times test k st), last_opt (snd (run_times test k st)) None).
Proof. exact @time_calls_actual. Qed.
Print Assumptions C45_zt_time_actual_partial.
(** without a function nothing is called *)
Theorem C45_no_function : forall S R (test : S -> S * R) n st fuel, time_calls test fuel false n st = Ok (st, None).
Proof. reflexivity. Qed.
Print Assumptions C45_no_function.

(** The documented number of calls is n: with a function that counts its calls, n = 1 gives 2. *)
Theorem C45_zt_time_calls_refuted : exists n c, 0 < n /\ time_calls (fun c : Z => (c + 1, tt)) 2 true n 0 = Ok (c, Some tt) /\ c <> n.
Proof. exists 1, 2. split; [lia|]. split; [reflexivity|congruence]. Qed.
Print Assumptions C45_zt_time_calls_refuted.
(** n = INT_MAX: the counter overflows, whatever the function. *)
Theorem C45_int_max_refuted : forall S R (test : S -> S * R) st fuel, (Z.to_nat 2147483647 < fuel)%nat -> time_calls test fuel true 2147483647 st = UB.
Proof. intros S R test st fuel F. unfold time_calls. cbn [andb Z.eqb negb]. apply (time_loop_over test (Z.to_nat 2147483647)); [lia| |exact F]. now rewrite Z.sub_0_r. Qed.
Print Assumptions C45_int_max_refuted.
