(** C69: the times that zt_time reports, and calibration (zt_time.c, zt_time.h). *)
From Verif Require Import TimeModel TimeProofs.
Open Scope Z_scope.

(** A reading of getrusage that makes sense: microseconds below a second, seconds that fit 62 bits. *)
Definition sensible (t : timeval) : Prop := normal t /\ 0 <= tv_sec t < 2 ^ 61.
Definition zero : timeval := mktv 0 0.
Lemma usecs_zero t : normal t -> usecs t = 0 -> t = zero.
Proof. destruct t as [s u]. unfold normal, usecs, zero. cbn [tv_sec tv_usec]. intros N E. f_equal; lia. Qed.
Lemma usecs_range t : normal t -> tv_sec t * 1000000 <= usecs t < (tv_sec t + 1) * 1000000.
Proof. unfold normal, usecs. lia. Qed.

Section Z.
Context {S R : Type} (test : S -> S * R) (rusage : S -> S * (timeval * timeval)).
Hypothesis readings : forall st, sensible (fst (snd (rusage st))) /\ sensible (snd (snd (rusage st))).

(** one sub or diff in the middle of zt_time *)
Lemma sub_step f m a t1 t2 : (1 <= f)%nat -> normal (m t1) -> normal (m t2) -> - 2 ^ 62 <= tv_sec (m t1) - tv_sec (m t2) < 2 ^ 62 ->
  exists m', zt_sub_time f m a t1 t2 = Ok m' /\ usecs (m' a) = usecs (m t1) - usecs (m t2) /\ normal (m' a) /\ (forall q, q <> a -> m' q = m q).
Proof.
  intros F N1 N2 L. destruct (sub_correct m a t1 t2 N1 N2) as (m' & E & U & N & O); [unfold longp; lia|unfold longp; lia|]. exists m'. split; [now apply sub_more|]. now split.
Qed.
Lemma diff_is_sub f m a t1 t2 : zt_diff_time f m a t1 t2 = zt_sub_time f m a t2 t1.
Proof. reflexivity. Qed.

(** what a call with its result at address tv does, given what the test does: tv >= 6 is memory of the user's *)
Lemma run_ok f m ht n tv st st1 ret : (1 <= f)%nat -> (6 <= tv)%nat -> m 0%nat = zero -> m 1%nat = zero -> time_calls test f ht n (fst (rusage st)) = Ok (st1, ret) ->
  exists m', zt_time test rusage f m ht n tv st = Ok (m', fst (rusage st1), ret) /\
    usecs (m' (tv + 1)%nat) = usecs (fst (snd (rusage st1))) - usecs (fst (snd (rusage st))) /\ normal (m' (tv + 1)%nat) /\
    usecs (m' tv) = usecs (snd (snd (rusage st1))) - usecs (snd (snd (rusage st))) /\ normal (m' tv) /\
    (forall q, ~ (2 <= q <= 5)%nat -> q <> tv -> q <> (tv + 1)%nat -> m' q = m q).
Proof.
  intros F T C0 C1 TC. unfold zt_time. pose proof (readings st) as RB. pose proof (readings st1) as RA. destruct (rusage st) as [s0 [u s]]. cbn [fst snd] in *. rewrite TC. cbn [obind]. destruct (rusage st1) as [s2 [u2 v2]]. cbn [fst snd] in *.
  destruct RB as [[Nu Lu] [Ns Ls]]. destruct RA as [[Nu2 Lu2] [Nv2 Lv2]]. set (m0 := tset (tset (tset (tset m 2 u) 3 s) 4 u2) 5 v2).
  assert (M2 : m0 2%nat = u) by reflexivity. assert (M3 : m0 3%nat = s) by reflexivity. assert (M4 : m0 4%nat = u2) by reflexivity. assert (M5 : m0 5%nat = v2) by reflexivity.
  assert (MO : forall q, ~ (2 <= q <= 5)%nat -> m0 q = m q) by (intros q Q; unfold m0; rewrite !tset_other by lia; reflexivity).
  rewrite !diff_is_sub. destruct (sub_step f m0 (tv + 1) 4 2 F) as (m1 & E1 & U1 & N1 & O1); [rewrite ?M4, ?M2; (assumption || lia)..|]. rewrite E1. cbn [obind]. rewrite diff_is_sub.
  destruct (sub_step f m1 tv 5 3 F) as (m2 & E2 & U2 & N2 & O2); [rewrite !O1, ?M5, ?M3 by lia; (assumption || lia)..|]. rewrite E2. cbn [obind]. rewrite !O1, M5, M3 in U2 by lia. rewrite M4, M2 in U1.
  assert (K1 : m2 1%nat = zero) by (rewrite O2, O1, MO by lia; exact C1). assert (K0 : m2 0%nat = zero) by (rewrite O2, O1, MO by lia; exact C0). assert (KU : m2 (tv + 1)%nat = m1 (tv + 1)%nat) by (apply O2; lia).
  assert (NZ : normal zero) by (unfold normal, zero; cbn [tv_usec]; lia).
  pose proof (usecs_range _ N1) as G1. pose proof (usecs_range _ N2) as G2. pose proof (usecs_range _ Nu) as H1. pose proof (usecs_range _ Nu2) as H2. pose proof (usecs_range _ Ns) as H3. pose proof (usecs_range _ Nv2) as H4.
  assert (Z1 : - 2 ^ 62 <= tv_sec (m1 (tv + 1)%nat) < 2 ^ 62) by lia. assert (Z2 : - 2 ^ 62 <= tv_sec (m2 tv) < 2 ^ 62) by lia.
  destruct (sub_step f m2 (tv + 1) (tv + 1) 1 F) as (m3 & E3 & U3 & N3 & O3); [rewrite ?KU, ?K1; (assumption || (cbn [zero tv_sec]; lia))..|]. rewrite E3. cbn [obind]. rewrite KU, K1 in U3.
  assert (KV : m3 tv = m2 tv) by (apply O3; lia). assert (K3 : m3 0%nat = zero) by (rewrite O3 by lia; exact K0).
  destruct (sub_step f m3 tv tv 0 F) as (m4 & E4 & U4 & N4 & O4); [rewrite ?KV, ?K3; (assumption || (cbn [zero tv_sec]; lia))..|]. rewrite E4. cbn [obind]. rewrite KV, K3 in U4.
  exists m4. split; [reflexivity|]. change (usecs zero) with 0 in *. rewrite (O4 (tv + 1)%nat) by lia. split; [lia|]. split; [exact N3|]. split; [lia|]. split; [exact N4|].
  intros q Q1 Q2 Q3. rewrite O4, O3, O2, O1, MO by (assumption || lia). reflexivity.
Qed.

(** calibration, from any memory at all: the calibration time is 0 afterwards *)
Lemma cal_ok f m st : (1 <= f)%nat ->
  let st1 := fst (rusage st) in exists m', zt_time_calibrate test rusage f m st = Ok (m', fst (rusage st1)) /\ m' 0%nat = zero /\ m' 1%nat = zero /\ (forall q, (6 <= q)%nat -> m' q = m q).
Proof.
  intros F. cbv zeta. unfold zt_time_calibrate, zt_time. pose proof (readings st) as RB. destruct (rusage st) as [st1 [u s]]. cbn [fst snd time_calls andb] in *. cbn [obind]. pose proof (readings st1) as RA. destruct (rusage st1) as [s2 [u2 v2]]. cbn [fst snd] in *.
  destruct RB as [[Nu Lu] [Ns Ls]]. destruct RA as [[Nu2 Lu2] [Nv2 Lv2]]. set (m0 := tset (tset (tset (tset m 2 u) 3 s) 4 u2) 5 v2).
  assert (M2 : m0 2%nat = u) by reflexivity. assert (M3 : m0 3%nat = s) by reflexivity. assert (M4 : m0 4%nat = u2) by reflexivity. assert (M5 : m0 5%nat = v2) by reflexivity.
  assert (MO : forall q, ~ (2 <= q <= 5)%nat -> m0 q = m q) by (intros q Q; unfold m0; rewrite !tset_other by lia; reflexivity).
  cbn [Nat.add]. rewrite !diff_is_sub. destruct (sub_step f m0 1 4 2 F) as (m1 & E1 & U1 & N1 & O1); [rewrite ?M4, ?M2; (assumption || lia)..|]. rewrite E1. cbn [obind]. rewrite diff_is_sub.
  destruct (sub_step f m1 0 5 3 F) as (m2 & E2 & U2 & N2 & O2); [rewrite !O1, ?M5, ?M3 by lia; (assumption || lia)..|]. rewrite E2. cbn [obind].
  assert (KU : m2 1%nat = m1 1%nat) by (apply O2; lia).
  destruct (sub_step f m2 1 1 1 F) as (m3 & E3 & U3 & N3 & O3); [rewrite ?KU; (assumption || lia)..|]. rewrite E3. cbn [obind].
  assert (KV : m3 0%nat = m2 0%nat) by (apply O3; lia).
  destruct (sub_step f m3 0 0 0 F) as (m4 & E4 & U4 & N4 & O4); [rewrite ?KV; (assumption || lia)..|]. rewrite E4. cbn [obind].
  exists m4. split; [reflexivity|]. split; [apply usecs_zero; [exact N4|lia]|]. split; [rewrite O4 by lia; apply usecs_zero; [exact N3|lia]|].
  intros q Q. rewrite O4, O3, O2, O1, MO by lia. reflexivity.
Qed.
End Z.

(** Programs that time functions and calibrate, in any order.  The world is any state with a clock.  A program starts with the calibration time 0. *)
Inductive history {S R} (test : S -> S * R) (rusage : S -> S * (timeval * timeval)) : tmem -> S -> Prop :=
| Begin m st : m 0%nat = mktv 0 0 -> m 1%nat = mktv 0 0 -> history test rusage m st
| Timed fuel m st ht n tv m' st' ret : history test rusage m st -> (1 <= fuel)%nat -> (6 <= tv)%nat -> zt_time test rusage fuel m ht n tv st = Ok (m', st', ret) -> history test rusage m' st'
| Calibrated fuel m st m' st' : history test rusage m st -> (1 <= fuel)%nat -> zt_time_calibrate test rusage fuel m st = Ok (m', st') -> history test rusage m' st'
| Elsewhere m st m' st' : history test rusage m st -> m' 0%nat = m 0%nat -> m' 1%nat = m 1%nat -> history test rusage m' st'.
Definition readings {S} (rusage : S -> S * (timeval * timeval)) : Prop := forall st, sensible (fst (snd (rusage st))) /\ sensible (snd (snd (rusage st))).
Lemma history_zero S R (test : S -> S * R) rusage : readings rusage -> forall m st, history test rusage m st -> m 0%nat = mktv 0 0 /\ m 1%nat = mktv 0 0.
Proof.
  intros RD. induction 1 as [m st A B|fuel m st ht n tv m' st' ret H [I0 I1] F T E|fuel m st m' st' H [I0 I1] F E|m st m' st' H [I0 I1] A B].
  - now split.
  - assert (TC : exists st1 r, time_calls test fuel ht n (fst (rusage st)) = Ok (st1, r)).
    { unfold zt_time in E. destruct (rusage st) as [s0 [u s]]. cbn [fst]. destruct (time_calls test fuel ht n s0) as [[st1 r]| | |]; cbn [obind] in E; try discriminate. now exists st1, r. }
    destruct TC as (st1 & r & TC). destruct (run_ok test rusage RD fuel m ht n tv st st1 r F T I0 I1 TC) as (m2 & E2 & _ & _ & _ & _ & O). assert (m' = m2) as -> by congruence. rewrite !O by lia. now split.
  - destruct (cal_ok test rusage RD fuel m st F) as (m2 & E2 & A & B & _). assert (m' = m2) as -> by congruence. now split.
  - now rewrite A, B.
Qed.

(** In every such program, whatever was timed or calibrated before: a call of zt_time that makes its calls stores exactly the user and system time that passed between its two readings, normalised; it changes no other memory of the user's. *)
Theorem C69_elapsed : forall S R (test : S -> S * R) rusage m st fuel ht n tv st1 ret, readings rusage -> history test rusage m st -> (1 <= fuel)%nat -> (6 <= tv)%nat ->
  time_calls test fuel ht n (fst (rusage st)) = Ok (st1, ret) ->
  exists m', zt_time test rusage fuel m ht n tv st = Ok (m', fst (rusage st1), ret) /\
    usecs (m' (tv + 1)%nat) = usecs (fst (snd (rusage st1))) - usecs (fst (snd (rusage st))) /\ 0 <= tv_usec (m' (tv + 1)%nat) < 1000000 /\
    usecs (m' tv) = usecs (snd (snd (rusage st1))) - usecs (snd (snd (rusage st))) /\ 0 <= tv_usec (m' tv) < 1000000 /\
    (forall q, (6 <= q)%nat -> q <> tv -> q <> (tv + 1)%nat -> m' q = m q).
Proof.
  intros S R test rusage m st fuel ht n tv st1 ret RD H F T TC. destruct (history_zero _ _ _ _ RD _ _ H) as [C0 C1]. destruct (run_ok test rusage RD fuel m ht n tv st st1 ret F T C0 C1 TC) as (m' & E & A1 & A2 & A3 & A4 & O). exists m'. do 5 (split; [assumption|]). intros q Q1 Q2 Q3. apply O; [lia|exact Q2|exact Q3].
Qed.
Print Assumptions C69_elapsed.
(** Calibration always succeeds and records that the overhead is 0, whatever time passed between its readings: the result overwrites the value that is subtracted from it. *)
Theorem C69_calibrate : forall S R (test : S -> S * R) rusage m st fuel, readings rusage -> (1 <= fuel)%nat ->
  exists m', zt_time_calibrate test rusage fuel m st = Ok (m', fst (rusage (fst (rusage st)))) /\ m' 0%nat = mktv 0 0 /\ m' 1%nat = mktv 0 0 /\ (forall q, (6 <= q)%nat -> m' q = m q).
Proof. intros S R test rusage m st fuel RD F. exact (cal_ok test rusage RD fuel m st F). Qed.
Print Assumptions C69_calibrate.

(** So zt_time after zt_time_calibrate does not discount the overhead: if every reading of the clock takes [d] microseconds, timing nothing reports d, calibrated or not. *)
Definition ticking (d : Z) (t : Z) : Z * (timeval * timeval) := let now := Z.max 0 (Z.min t 1000000000000) in (t + d, (mktv (now / 1000000) (now mod 1000000), mktv 0 0)).
Lemma ticking_readings d : readings (ticking d).
Proof.
  intros t. unfold ticking, sensible, normal. cbn [fst snd tv_sec tv_usec]. set (k := Z.max 0 (Z.min t 1000000000000)). assert (K : 0 <= k <= 1000000000000) by (unfold k; lia). pose proof (Z.mod_pos_bound k 1000000 ltac:(lia)). pose proof (Z.div_mod k 1000000 ltac:(lia)). lia.
Qed.
Theorem C69_calibrate_refuted : forall d m, 0 <= d < 1000000 -> m 0%nat = mktv 0 0 -> m 1%nat = mktv 0 0 -> exists m1 t1 m2 t2,
  zt_time_calibrate (fun t : Z => (t, tt)) (ticking d) 1 m 0 = Ok (m1, t1) /\ zt_time (fun t : Z => (t, tt)) (ticking d) 1 m1 false 0 6 t1 = Ok (m2, t2, None) /\ usecs (m2 7%nat) = d.
Proof.
  intros d m D Z0 Z1. destruct (C69_calibrate Z unit (fun t => (t, tt)) (ticking d) m 0 1 (ticking_readings d) (le_n 1)) as (m1 & E & C0 & C1 & _).
  destruct (C69_elapsed Z unit (fun t => (t, tt)) (ticking d) m1 (fst (ticking d (fst (ticking d 0)))) 1 false 0 6 (fst (ticking d (fst (ticking d (fst (ticking d 0)))))) None (ticking_readings d) (Begin _ _ _ _ C0 C1) (le_n 1) (le_n 6) eq_refl) as (m2 & E2 & U & _).
  exists m1, (fst (ticking d (fst (ticking d 0)))), m2. eexists. split; [exact E|]. split; [exact E2|]. change (m2 7%nat) with (m2 (6 + 1)%nat). rewrite U. unfold ticking. cbn [fst snd]. unfold usecs. cbn [tv_sec tv_usec].
  assert (X : forall k, 0 <= k <= 1000000000000 -> Z.max 0 (Z.min k 1000000000000) / 1000000 * 1000000 + Z.max 0 (Z.min k 1000000000000) mod 1000000 = k). { intros k K. rewrite Z.min_l, Z.max_r by lia. pose proof (Z.div_mod k 1000000 ltac:(lia)). lia. }
  rewrite !X by lia. lia.
Qed.
Print Assumptions C69_calibrate_refuted.

(** The macro usleep waits for the microseconds its argument says, when it is a single operand; in a sum the division binds only its last operand. *)
Theorem C69_usleep : forall x, 0 <= x -> usecs (usleep x) = x /\ 0 <= tv_usec (usleep x) < 1000000.
Proof. intros x X. unfold usecs, usleep. cbn [tv_sec tv_usec]. pose proof (Z.quot_rem' x 1000000). pose proof (Z.rem_bound_pos x 1000000 X ltac:(lia)). lia. Qed.
Print Assumptions C69_usleep.
Theorem C69_usleep_sum_refuted : forall a b, 1 < a -> 0 <= b -> usecs (usleep_sum a b) > a + b.
Proof.
  intros a b A B. unfold usecs, usleep_sum. cbn [tv_sec tv_usec]. pose proof (Z.rem_bound_pos (a + b) 1000000 ltac:(lia) ltac:(lia)). pose proof (Z.quot_rem' b 1000000). pose proof (Z.rem_bound_pos b 1000000 B ltac:(lia)). pose proof (Z.quot_rem' (a + b) 1000000).
  assert (Q : 0 <= b ÷ 1000000) by (apply Z.quot_pos; lia). set (q := (a + b) ÷ 1000000) in *. set (r := Z.rem (a + b) 1000000) in *. set (q' := b ÷ 1000000) in *. set (r' := Z.rem b 1000000) in *. clearbody q r q' r'. lia.
Qed.
Print Assumptions C69_usleep_sum_refuted.

(** non-vacuity: a test of 30 microseconds called for n = 2, readings of 7 microseconds each, after a calibration *)
Example case : match zt_time_calibrate (fun t : Z => (t + 30, t)) (ticking 7) 9 (fun _ => mktv 0 0) 999900 with
  | Ok (m, t) => t = 999914 /\ match zt_time (fun t : Z => (t + 30, t)) (ticking 7) 9 m true 2 6 t with
    | Ok (m, t, r) => m 7%nat = mktv 0 97 /\ m 6%nat = mktv 0 0 /\ t = 1000018 /\ r = Some 999981 | _ => False end
  | _ => False end.
Proof. vm_compute. repeat split. Qed.
