(** C32: zt_random.c.  The specification is at the head of RandProofs.v: [mt_seeded seed x] (x starts from the seed), [mt_recurrence x] (the
    MT19937 recurrence), [mt_temper]; [draws times s]: one zt_random_uint32 per element of times (the clock reading at that moment). *)
From Verif Require Import Prelude Bits RandModel RandProofs RandArray.
Open Scope Z_scope.

(** after seeding, whatever the state was before, the n-th number is the n-th of MT19937; no access leaves the state *)
Theorem C32_sequence : forall seed x s, 0 <= seed < 2 ^ 32 -> mt_seeded seed x -> mt_recurrence x -> length (mt s) = 624%nat ->
  exists s0, srandom s seed = Ok s0 /\ forall times, exists s',
    draws times s0 = Ok (map (fun i => mt_temper (x (624 + i)%nat)) (seq 0 (length times)), s').
Proof.
  intros seed x s W M R L. destruct (srandom_ok x seed s W M L) as (s0 & E & _ & RD). exists s0. split; [exact E|]. intros times. destruct (draws_ok x R times s0 0 RD) as (s' & E' & _). exists s'. exact E'.
Qed.
Print Assumptions C32_sequence.
(** such a sequence exists for every seed *)
Theorem C32_sequence_exists : forall seed, exists x, mt_seeded seed x /\ mt_recurrence x.
Proof. intros seed. exists (mt19937 seed). apply mt19937_ok. Qed.
Print Assumptions C32_sequence_exists.
(** equal seeds give equal numbers; they are 32-bit numbers *)
Theorem C32_deterministic : forall seed s1 s2 t1 t2, 0 <= seed < 2 ^ 32 -> length (mt s1) = 624%nat -> length (mt s2) = 624%nat -> length t1 = length t2 ->
  exists u1 u2 vs v1 v2, srandom s1 seed = Ok u1 /\ srandom s2 seed = Ok u2 /\ draws t1 u1 = Ok (vs, v1) /\ draws t2 u2 = Ok (vs, v2) /\
    Forall (fun v => 0 <= v < 2 ^ 32) vs.
Proof.
  intros seed s1 s2 t1 t2 W L1 L2 T. destruct (mt19937_ok seed) as [M R].
  destruct (C32_sequence seed _ s1 W M R L1) as (u1 & E1 & D1). destruct (C32_sequence seed _ s2 W M R L2) as (u2 & E2 & D2).
  destruct (D1 t1) as (v1 & F1). destruct (D2 t2) as (v2 & F2). rewrite <- T in F2.
  exists u1, u2, (map (fun i => mt_temper (mt19937 seed (624 + i)%nat)) (seq 0 (length t1))), v1, v2. split; [exact E1|]. split; [exact E2|]. split; [exact F1|]. split; [exact F2|].
  apply Forall_forall. intros v H. apply in_map_iff in H. destruct H as (i & <- & _). rewrite <- temper_eq. apply temper_w32. apply rec_w32; [exact R|]. intros j J. exact (seeded_w32 seed _ W M j J).
Qed.
Print Assumptions C32_deterministic.
(** a state that was never seeded is seeded with the time of the first draw *)
Theorem C32_unseeded : forall s now r, initialized s <> INITIALIZED -> 0 <= now < 2 ^ 32 -> length (mt s) = 624%nat ->
  exists s0, srandom s now = Ok s0 /\ draws (now :: r) s = draws (now :: r) s0.
Proof.
  intros s now r I W L. destruct (mt19937_ok now) as [M _]. destruct (srandom_ok _ now s W M L) as (s0 & E & _ & (b & _ & _ & _ & I0)). exists s0. split; [exact E|].
  cbn [draws]. unfold uint32. destruct (Z.eqb_spec (initialized s) INITIALIZED); [contradiction|]. rewrite E, I0, Z.eqb_refl. reflexivity.
Qed.
Print Assumptions C32_unseeded.
(** Seeding by any non-empty array, whatever the state was before: in bounds, and the numbers drawn are those of MT19937 started with the reference's
    init_by_array ([array_seeded], RandArray.v), of which the first word is 2^31 (so the generator is not stuck at zero). *)
Theorem C32_initstate : forall s seed x, length (mt s) = 624%nat -> seed <> [] -> array_seeded seed x -> mt_recurrence x ->
  exists s', initstate s seed = Ok s' /\ x 0%nat = 2 ^ 31 /\ (forall i, (i < 624)%nat -> nth_error (mt s') i = Some (x i)) /\
  forall times, exists s'', draws times s' = Ok (map (fun i => mt_temper (x (624 + i)%nat)) (seq 0 (length times)), s'').
Proof.
  intros s seed x L NE AX RX. destruct (initstate_reference s seed L NE) as (s' & E & A).
  destruct (initstate_ok s seed L NE) as (s0 & E0 & (L' & _) & _ & RD). assert (s0 = s') as -> by congruence.
  pose proof (array_seeded_unique _ _ _ A AX) as U.
  exists s'. split; [exact E|]. split; [destruct AX as (? & ? & _ & _ & _ & H & _); exact H|].
  assert (N : forall i, (i < 624)%nat -> nth_error (mt s') i = Some (x i)) by (intros i I; rewrite <- (U i I); apply nth_error_nth'; lia).
  split; [exact N|].
  assert (RX' : ready x s' 0).
  { destruct RD as (b & [HL H] & D & B & I). exists b. split; [|auto]. split; [exact HL|]. intros i Hi.
    assert (MI : mti s' = 624%nat).
    { clear - E. unfold initstate in E. destruct (srandom s 19650218) as [s1| | |] eqn:E1; cbn [obind] in E; try discriminate.
      assert (M1 : mti s1 = 624%nat).
      { unfold srandom in E1. destruct (wr (mt s) 0 (Z.land 19650218 4294967295)) as [q| | |]; try discriminate. cbn [obind] in E1. destruct (seed_loop (RECURRENCE - 1) 1 q); try discriminate. cbn [obind] in E1. injection E1 as <-. reflexivity. }
      destruct (init1 _ _ _ _ _) as [[l i]| | |]; cbn [obind] in E; try discriminate. destruct (init2 _ _ _) as [l'| | |]; cbn [obind] in E; try discriminate.
      destruct (wr l' 0 2147483648) as [l''| | |]; cbn [obind] in E; try discriminate. injection E as <-. exact M1. }
    assert (b = 0%nat) as -> by lia. rewrite N by exact Hi. replace (i <? 0)%nat with false by lia. f_equal. f_equal. lia. }
  intros times. destruct (draws_ok _ RX times s' 0 RX') as (s'' & E' & _). exists s''. exact E'.
Qed.
Print Assumptions C32_initstate.
(** there is such a sequence for every array, and its first 624 words are determined by it *)
Theorem C32_array_seeded_exists : forall seed, seed <> [] -> exists x, array_seeded seed x /\ mt_recurrence x.
Proof.
  intros seed NE. destruct (initstate_reference (mkr (repeat 0 624) 0 0) seed (repeat_length _ _) NE) as (s' & E & A).
  destruct (initstate_ok (mkr (repeat 0 624) 0 0) seed (repeat_length _ _) NE) as (s0 & E0 & (L' & _) & _ & _). assert (s0 = s') as -> by congruence.
  exists (mt_from (mt s')). split; [|apply mt_from_rec, L'].
  assert (U : forall i, (i < 624)%nat -> mt_from (mt s') i = nth i (mt s') 0).
  { intros i I. destruct (mt_from_start _ L') as [_ H]. specialize (H i I). symmetry. now apply nth_error_nth. }
  destruct A as (g & v & G & A & B & W0 & W). exists g, v. cbv zeta in *. split; [exact G|]. split; [exact A|]. split; [exact B|]. split; [rewrite U by lia; exact W0|].
  intros t T. pose proof (Nat.mod_upper_bound t 623 ltac:(lia)). rewrite U by lia. apply W, T.
Qed.
Print Assumptions C32_array_seeded_exists.
Theorem C32_array_seeded_unique : forall seed x y, array_seeded seed x -> array_seeded seed y -> forall i, (i < 624)%nat -> x i = y i.
Proof. exact array_seeded_unique. Qed.
Print Assumptions C32_array_seeded_unique.
(** an empty seed array is read out of bounds *)
Theorem C32_initstate_empty_refuted : forall s, length (mt s) = 624%nat -> initstate s [] = UB.
Proof.
  intros s L. unfold initstate. destruct (mt19937_ok 19650218) as [M _]. destruct (srandom_ok _ 19650218 s ltac:(unfold w32; lia) M L) as (s1 & E1 & [L1 ST] & _). rewrite E1. cbn [obind].
  change (Nat.max RECURRENCE (length (@nil Z))) with (S 623). generalize 623%nat. intros n. cbn [init1]. unfold rd at 1. rewrite ST by lia. cbn [obind]. unfold rd at 1. rewrite ST by lia. reflexivity.
Qed.
Print Assumptions C32_initstate_empty_refuted.
(** the reference outputs for seed 5489 and for the array {0x123, 0x234, 0x345, 0x456} *)
Example C32_ex : let z := mkr (repeat 7 624) 9 0 in
  (s <- srandom z 5489 ;; ' (v, _) <- draws [0; 0; 0] s ;; Ok v) = Ok [3499211612; 581869302; 3890346734] /\
  (s <- initstate z [0x123; 0x234; 0x345; 0x456] ;; ' (v, _) <- draws [0; 0; 0] s ;; Ok v) = Ok [1067595299; 955945823; 477289528].
Proof. vm_compute. split; reflexivity. Qed.
