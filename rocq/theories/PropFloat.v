(** C71: random floating point numbers.  C72: measured times as floats. *)
From Coq Require Import Lqa Qabs.
From Verif Require Import Prelude RandModel RandProofs TimeModel FloatModel FloatProofs.
Local Open Scope Q_scope.

Lemma c_1 : rnd 53 (1 / 4294967295) == 4294967297 # 18446744073709551616.
Proof. vm_compute. reflexivity. Qed.
Lemma c_2 : rnd 53 (1 / 4294967296) == 1 # 4294967296.
Proof. vm_compute. reflexivity. Qed.
Lemma int_exact v : (0 <= v < 9007199254740992)%Z -> rnd 53 (inject_Z v) == inject_Z v.
Proof. intros V. apply (rnd_eq 53 _ v 0); [change (2 ^ 0) with 1; ring|exact V|lia]. Qed.
(** the value of the three macros as a function of the random number *)
Definition f1 (v : Z) : Q := rnd 53 (rnd 53 (inject_Z v) * rnd 53 (1 / 4294967295)).
Lemma f1_err v : (0 <= v < 4294967296)%Z -> exists y, y == inject_Z v * (4294967297 # 18446744073709551616) /\ y * 9007199254740991 <= f1 v * 9007199254740992 <= y * 9007199254740993.
Proof.
  intros V. exists (rnd 53 (inject_Z v) * rnd 53 (1 / 4294967295)). split; [rewrite c_1, int_exact by lia; reflexivity|].
  assert (P : 0 <= rnd 53 (inject_Z v) * rnd 53 (1 / 4294967295)) by (rewrite c_1, int_exact by lia; assert (0 <= inject_Z v) by (change 0 with (inject_Z 0); rewrite <- Zle_Qle; lia); nra).
  pose proof (rnd_err 53 _ P) as [A B]. change (2 ^ 53) with 9007199254740992 in *. unfold f1. split; lra.
Qed.
Lemma f1_last : f1 4294967295 == 1.
Proof. vm_compute. reflexivity. Qed.
Lemma f1_step v w : (0 <= v < w)%Z -> (w < 4294967296)%Z -> f1 v < f1 w.
Proof.
  intros V W. destruct (f1_err v ltac:(lia)) as (y & Y & Y1 & Y2). destruct (f1_err w ltac:(lia)) as (z & Z & Z1 & Z2).
  assert (VW : inject_Z v + 1 <= inject_Z w) by (change 1 with (inject_Z 1); rewrite <- inject_Z_plus, <- Zle_Qle; lia). assert (WU : inject_Z w <= 4294967295) by (change 4294967295 with (inject_Z 4294967295); rewrite <- Zle_Qle; lia). assert (V0 : 0 <= inject_Z v) by (change 0 with (inject_Z 0); rewrite <- Zle_Qle; lia). lra.
Qed.
Lemma f1_0 : f1 0 == 0.
Proof. vm_compute. reflexivity. Qed.
Lemma pow_m32 : 2 ^ (-32) == 1 # 4294967296.
Proof. reflexivity. Qed.
Lemma f00_val v : (0 <= v < 4294967296)%Z -> rnd 53 (rnd 53 (rnd 53 (inject_Z v) + (1 # 2)) * rnd 53 (1 / 4294967296)) == (inject_Z v + (1 # 2)) / 4294967296.
Proof.
  intros V. assert (E1 : rnd 53 (rnd 53 (inject_Z v) + (1 # 2)) == inject_Z v + (1 # 2)).
  { rewrite (rnd_comp 53 _ (inject_Z v + (1 # 2))) by (now rewrite int_exact by lia). apply (rnd_eq 53 _ (2 * v + 1) (-1)); [rewrite inject_Z_plus, inject_Z_mult; change (2 ^ (-1)) with (1 # 2); change (inject_Z 2) with 2; change (inject_Z 1) with 1; field|lia|lia]. }
  assert (E2 : rnd 53 (rnd 53 (inject_Z v) + (1 # 2)) * rnd 53 (1 / 4294967296) == (inject_Z v + (1 # 2)) / 4294967296) by (rewrite E1, c_2; field).
  rewrite (rnd_comp 53 _ _ E2). apply (rnd_eq 53 _ (2 * v + 1) (-33)); [rewrite inject_Z_plus, inject_Z_mult; change (2 ^ (-33)) with (1 # 8589934592); change (inject_Z 2) with 2; change (inject_Z 1) with 1; field|lia|lia].
Qed.
Lemma f10_val v : (0 <= v < 4294967296)%Z -> rnd 53 (rnd 53 (inject_Z v) * rnd 53 (1 / 4294967296)) == inject_Z v / 4294967296.
Proof.
  intros V. assert (E2 : rnd 53 (inject_Z v) * rnd 53 (1 / 4294967296) == inject_Z v / 4294967296) by (rewrite int_exact, c_2 by lia; field).
  rewrite (rnd_comp 53 _ _ E2). apply (rnd_eq 53 _ v (-32)); [rewrite pow_m32; field|lia|lia].
Qed.

(** zt_random_float: in [0,1]; 0 and 1 are the images of the smallest and the largest number, and different numbers give different floats, in the same order *)
Theorem C71_float : forall now s v s', uint32 now s = Ok (v, s') -> (0 <= v < 4294967296)%Z ->
  exists f, random_float now s = Ok (f, s') /\ 0 <= f <= 1 /\ (f == 0 <-> v = 0%Z) /\ (f == 1 <-> v = 4294967295%Z) /\
  forall now2 s2 w s2', uint32 now2 s2 = Ok (w, s2') -> (v < w < 4294967296)%Z -> exists g, random_float now2 s2 = Ok (g, s2') /\ f < g.
Proof.
  intros now s v s' E V. exists (f1 v). unfold random_float. rewrite E. cbn [obind]. fold (f1 v). split; [reflexivity|].
  assert (UP : v <> 4294967295%Z -> f1 v < 1) by (intros N; rewrite <- f1_last; apply f1_step; lia). assert (DN : v <> 0%Z -> 0 < f1 v) by (intros N; rewrite <- f1_0; apply f1_step; lia).
  split; [split|split; [|split]].
  - destruct (Z.eq_dec v 0) as [->|N]; [rewrite f1_0; lra|]. apply Qlt_le_weak, DN, N.
  - destruct (Z.eq_dec v 4294967295) as [->|N]; [rewrite f1_last; lra|]. apply Qlt_le_weak, UP, N.
  - split; [intros F; destruct (Z.eq_dec v 0) as [->|N]; [reflexivity|specialize (DN N); rewrite F in DN; discriminate DN]|intros ->; exact f1_0].
  - split; [intros F; destruct (Z.eq_dec v 4294967295) as [->|N]; [reflexivity|specialize (UP N); rewrite F in UP; discriminate UP]|intros ->; exact f1_last].
  - intros now2 s2 w s2' E2 W. exists (f1 w). rewrite E2. cbn [obind]. fold (f1 w). split; [reflexivity|]. apply f1_step; lia.
Qed.
(** zt_random_float00: exactly (v + 1/2) / 2^32, in (0,1) *)
Theorem C71_float00 : forall now s v s', uint32 now s = Ok (v, s') -> (0 <= v < 4294967296)%Z ->
  exists f, random_float00 now s = Ok (f, s') /\ f == (inject_Z v + (1 # 2)) / 4294967296 /\ 0 < f < 1.
Proof.
  intros now s v s' E V. unfold random_float00. rewrite E. cbn [obind]. eexists. split; [reflexivity|]. rewrite f00_val by exact V. split; [reflexivity|].
  assert (V0 : 0 <= inject_Z v) by (change 0 with (inject_Z 0); rewrite <- Zle_Qle; lia). assert (V1 : inject_Z v <= 4294967295) by (change 4294967295 with (inject_Z 4294967295); rewrite <- Zle_Qle; lia).
  split; [apply Qlt_shift_div_l; [reflexivity|lra]|apply Qlt_shift_div_r; [reflexivity|lra]].
Qed.
(** zt_random_float10: exactly v / 2^32, in [0,1) *)
Theorem C71_float10 : forall now s v s', uint32 now s = Ok (v, s') -> (0 <= v < 4294967296)%Z ->
  exists f, random_float10 now s = Ok (f, s') /\ f == inject_Z v / 4294967296 /\ 0 <= f < 1.
Proof.
  intros now s v s' E V. unfold random_float10. rewrite E. cbn [obind]. eexists. split; [reflexivity|]. rewrite f10_val by exact V. split; [reflexivity|].
  assert (V0 : 0 <= inject_Z v) by (change 0 with (inject_Z 0); rewrite <- Zle_Qle; lia). assert (V1 : inject_Z v <= 4294967295) by (change 4294967295 with (inject_Z 4294967295); rewrite <- Zle_Qle; lia).
  split; [apply Qle_shift_div_l; [reflexivity|lra]|apply Qlt_shift_div_r; [reflexivity|lra]].
Qed.
(** in every history: after any seed and any number of random numbers *)
Theorem C71_history : forall seed s times now, (0 <= seed < 4294967296)%Z -> length (mt s) = 624%nat ->
  exists s0 vs s1 v s2 f g h, srandom s seed = Ok s0 /\ draws times s0 = Ok (vs, s1) /\ uint32 now s1 = Ok (v, s2) /\ (0 <= v < 4294967296)%Z /\
    random_float now s1 = Ok (f, s2) /\ random_float00 now s1 = Ok (g, s2) /\ random_float10 now s1 = Ok (h, s2) /\ 0 <= f <= 1 /\ 0 < g < 1 /\ 0 <= h < 1.
Proof.
  intros seed s times now W L. destruct (mt19937_ok seed) as [M R]. destruct (srandom_ok _ seed s W M L) as (s0 & E & _ & RD). destruct (draws_ok _ R times s0 0 RD) as (s1 & D & RD1).
  destruct (draw_ok _ R now s1 _ RD1) as (s2 & U & _). exists s0. eexists. exists s1. eexists. exists s2.
  match type of U with _ = Ok (?v, _) => assert (V : (0 <= v < 4294967296)%Z) by (apply temper_w32, (rec_w32 _ R), (seeded_w32 seed); assumption) end.
  destruct (C71_float now s1 _ s2 U V) as (f & F1 & F2 & _). destruct (C71_float00 now s1 _ s2 U V) as (g & G1 & _ & G2). destruct (C71_float10 now s1 _ s2 U V) as (h & H1 & _ & H2).
  exists f, g, h. repeat (split; [eassumption|]). assumption.
Qed.
(** the first number after seed 5489 is 3499211612 *)
Example C71_ex : match (s <- srandom (mkr (repeat 7%Z 624) 9 0) 5489 ;; random_float10 0 s) with Ok (f, _) => f == 3499211612 # 4294967296 | _ => False end.
Proof. vm_compute. reflexivity. Qed.

(** C72: a time of sec seconds and usec microseconds *)
Definition seconds (t : timeval) : Q := inject_Z (tv_sec t) + inject_Z (tv_usec t) / 1000000.
Definition proper (t : timeval) : Prop := (0 <= tv_sec t < 9007199254740992 /\ 0 <= tv_usec t < 1000000)%Z.
Lemma to_float_err t : proper t -> 0 <= seconds t /\ seconds t * (16777216 - 1 - (1 # 1024)) <= to_float t * 16777216 <= seconds t * (16777216 + 1 + (1 # 1024)).
Proof.
  intros [S1 U1]. unfold to_float, seconds. assert (S0 : 0 <= inject_Z (tv_sec t)) by (change 0 with (inject_Z 0); rewrite <- Zle_Qle; lia). assert (U0 : 0 <= inject_Z (tv_usec t)) by (change 0 with (inject_Z 0); rewrite <- Zle_Qle; lia).
  assert (UE : rnd 53 (inject_Z (tv_usec t)) / 1000000 == inject_Z (tv_usec t) / 1000000) by (rewrite int_exact by lia; reflexivity).
  pose proof (rnd_comp 53 _ _ UE) as UE2. assert (UP : 0 <= inject_Z (tv_usec t) / 1000000) by (apply Qle_shift_div_l; [reflexivity|lra]).
  pose proof (rnd_err 53 _ UP) as [B1 B2]. rewrite <- UE2 in B1, B2. set (b := rnd 53 (rnd 53 (inject_Z (tv_usec t)) / 1000000)) in *. clearbody b. set (u := inject_Z (tv_usec t) / 1000000) in *. clearbody u. pose proof (int_exact (tv_sec t) ltac:(lia)) as SE. set (a := rnd 53 (inject_Z (tv_sec t))) in *. clearbody a. set (s := inject_Z (tv_sec t)) in *. clearbody s.
  change (2 ^ 53) with 9007199254740992 in *. assert (B0 : 0 <= b) by lra. assert (AB : 0 <= a + b) by lra. pose proof (rnd_err 53 _ AB) as [C1 C2]. set (c := rnd 53 (a + b)) in *. clearbody c. change (2 ^ 53) with 9007199254740992 in *. assert (C0 : 0 <= c) by lra.
  pose proof (rnd_err 24 _ C0) as [D1 D2]. change (2 ^ 24) with 16777216 in *. split; [lra|]. split; lra.
Qed.
(** the times reported are the exact ones up to a relative error of 2^-23, their sum up to 2^-22 *)
Theorem C72_elapsed : forall usr_time sys_time, proper usr_time -> proper sys_time ->
  let '(usr, sys, total) := result_to_elapsed usr_time sys_time in
  Qabs (usr - seconds usr_time) <= seconds usr_time / 8388608 /\ Qabs (sys - seconds sys_time) <= seconds sys_time / 8388608 /\
  Qabs (total - (seconds usr_time + seconds sys_time)) <= (seconds usr_time + seconds sys_time) / 4194304.
Proof.
  intros u s PU PS. unfold result_to_elapsed. destruct (to_float_err u PU) as (U0 & U1 & U2). destruct (to_float_err s PS) as (S0 & S1 & S2). set (fu := to_float u) in *. set (fs := to_float s) in *. clearbody fu fs.
  set (x := seconds u) in *. set (y := seconds s) in *. clearbody x y. assert (P : 0 <= fu + fs) by lra. pose proof (rnd_err 24 _ P) as [T1 T2]. set (t := rnd 24 (fu + fs)) in *. clearbody t. change (2 ^ 24) with 16777216 in *.
  assert (DV : forall a b k, 0 < k -> - a <= b * k <= a -> Qabs b <= a / k).
  { intros a b k K [H1 H2]. apply Qabs_Qle_condition. split; [|apply Qle_shift_div_l; assumption]. assert (E : - (a / k) == (- a) / k) by (unfold Qdiv; ring). rewrite E. apply Qle_shift_div_r; assumption. }
  split; [|split]; apply DV; (reflexivity || lra).
Qed.
(** but not to the hundredth of a second with which they are printed, from 2^18 seconds (three days) on; from 2^24 seconds on not even to the second *)
Theorem C72_hundredths_refuted : exists t, proper t /\ (tv_sec t = 262144)%Z /\ 1 # 100 < Qabs (to_float t - seconds t).
Proof. exists (mktv 262144 15000). split; [split; split; cbn; lia|]. split; [reflexivity|]. vm_compute. reflexivity. Qed.
Theorem C72_seconds_refuted : exists t, proper t /\ 1 <= Qabs (to_float t - seconds t).
Proof. exists (mktv 16777217 0). split; [split; split; cbn; lia|]. vm_compute. discriminate. Qed.
Example C72_ex : to_float (mktv 1 500000) == 3 # 2 /\ snd (result_to_elapsed (mktv 1 500000) (mktv 2 250000)) == 15 # 4.
Proof. vm_compute. split; reflexivity. Qed.
Print Assumptions C71_float.
Print Assumptions C71_float00.
Print Assumptions C71_float10.
Print Assumptions C71_history.
Print Assumptions C72_elapsed.
Print Assumptions C72_hundredths_refuted.
Print Assumptions C72_seconds_refuted.
