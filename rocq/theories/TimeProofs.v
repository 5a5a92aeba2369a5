From Verif Require Import TimeModel.
Open Scope Z_scope.

(** Specification: total microseconds. *)
Definition usecs (t : timeval) : Z := tv_sec t * 1000000 + tv_usec t.
Definition normal (t : timeval) : Prop := 0 <= tv_usec t < 1000000.
(** Only location [p] may differ. *)
Definition only_changed (p : nat) (m m' : tmem) : Prop := forall q, q <> p -> m' q = m q.
Definition longp (v : Z) : Prop := - 9223372036854775808 <= v <= 9223372036854775807.

Lemma lck_ok v : longp v -> lck v = Ok v.
Proof. unfold lck, in_long, longp. intros H. destruct ((_ <=? v) && _) eqn:E; [reflexivity|lia]. Qed.
Lemma lck_inv v w : lck v = Ok w -> w = v /\ longp v.
Proof. unfold lck, in_long, longp. destruct ((_ <=? v) && _) eqn:E; intros H; [injection H as <-; lia|discriminate]. Qed.

Lemma tset_same m p v : tset m p v p = v.
Proof. unfold tset. now rewrite Nat.eqb_refl. Qed.
Lemma tset_other m p v q : q <> p -> tset m p v q = m q.
Proof. unfold tset. intros H. apply Nat.eqb_neq in H. now rewrite H. Qed.

Lemma carry_ok fuel : forall m p m', 0 <= tv_usec (m p) -> carry fuel m p = Ok m' ->
  usecs (m' p) = usecs (m p) /\ normal (m' p) /\ only_changed p m m'.
Proof.
  induction fuel as [|f IH]; intros m p m' H0 H; cbn [carry] in H;
    destruct (Z.leb_spec 1000000 (tv_usec (m p))) as [L|L]; try discriminate.
  - injection H as <-. unfold normal, only_changed. auto with zarith.
  - apply obind_ok in H. destruct H as (s & Hs & H). apply obind_ok in H. destruct H as (u & Hu & H).
    apply lck_inv in Hs, Hu. destruct Hs as [-> _], Hu as [-> _].
    apply IH in H.
    + unfold set_usec, set_sec in *. rewrite ?tset_same in *. cbn [tv_sec tv_usec] in *.
      destruct H as (A & B & C). split; [|split].
      * rewrite A. unfold usecs. cbn. lia.
      * exact B.
      * intros q Hq. rewrite C by exact Hq. rewrite !tset_other by exact Hq. reflexivity.
    + unfold set_usec, set_sec. rewrite ?tset_same. cbn. lia.
  - injection H as <-. unfold normal, only_changed. auto with zarith.
Qed.

Lemma carry_runs fuel : forall m p, 0 <= tv_usec (m p) -> tv_usec (m p) < 1000000 * (Z.of_nat fuel + 1) ->
  longp (tv_usec (m p)) ->
  longp (tv_sec (m p)) -> longp (tv_sec (m p) + Z.of_nat fuel) -> exists m', carry fuel m p = Ok m'.
Proof.
  induction fuel as [|f IH]; intros m p H0 Hf Hu Hs1 Hs2; cbn [carry];
    destruct (Z.leb_spec 1000000 (tv_usec (m p))) as [L|L]; try (exfalso; lia); eauto.
  rewrite lck_ok by (unfold longp in *; lia). cbn [obind].
  assert (E : tv_usec (set_sec m p (tv_sec (m p) + 1) p) = tv_usec (m p)).
  { unfold set_sec. now rewrite tset_same. }
  rewrite E. rewrite lck_ok by (unfold longp in *; lia). cbn [obind].
  apply IH; unfold set_usec, set_sec; rewrite ?tset_same; cbn [tv_sec tv_usec]; unfold longp in *; lia.
Qed.

Lemma borrow_ok fuel : forall m p m', tv_usec (m p) < 1000000 -> borrow fuel m p = Ok m' ->
  usecs (m' p) = usecs (m p) /\ normal (m' p) /\ only_changed p m m'.
Proof.
  induction fuel as [|f IH]; intros m p m' H0 H; cbn [borrow] in H;
    destruct (Z.ltb_spec (tv_usec (m p)) 0) as [L|L]; try discriminate.
  - injection H as <-. unfold normal, only_changed. auto with zarith.
  - apply obind_ok in H. destruct H as (s & Hs & H). apply obind_ok in H. destruct H as (u & Hu & H).
    apply lck_inv in Hs, Hu. destruct Hs as [-> _], Hu as [-> _].
    apply IH in H.
    + unfold set_usec, set_sec in *. rewrite ?tset_same in *. cbn [tv_sec tv_usec] in *.
      destruct H as (A & B & C). split; [|split].
      * rewrite A. unfold usecs. cbn. lia.
      * exact B.
      * intros q Hq. rewrite C by exact Hq. rewrite !tset_other by exact Hq. reflexivity.
    + unfold set_usec, set_sec. rewrite ?tset_same. cbn. lia.
  - injection H as <-. unfold normal, only_changed. auto with zarith.
Qed.

Lemma borrow_runs fuel : forall m p, - 1000000 * Z.of_nat fuel <= tv_usec (m p) < 1000000 ->
  longp (tv_usec (m p)) ->
  longp (tv_sec (m p)) -> longp (tv_sec (m p) - Z.of_nat fuel) -> exists m', borrow fuel m p = Ok m'.
Proof.
  induction fuel as [|f IH]; intros m p Hf Hu Hs1 Hs2; cbn [borrow];
    destruct (Z.ltb_spec (tv_usec (m p)) 0) as [L|L]; try (exfalso; lia); eauto.
  rewrite lck_ok by (unfold longp in *; lia). cbn [obind].
  assert (E : tv_usec (set_sec m p (tv_sec (m p) - 1) p) = tv_usec (m p)).
  { unfold set_sec. now rewrite tset_same. }
  rewrite E. rewrite lck_ok by (unfold longp in *; lia). cbn [obind].
  apply IH; unfold set_usec, set_sec; rewrite ?tset_same; cbn [tv_sec tv_usec]; unfold longp in *; lia.
Qed.

Lemma set_sec_usec m p s q : tv_usec (set_sec m p s q) = tv_usec (m q).
Proof. unfold set_sec, tset. destruct (Nat.eqb_spec q p) as [->|]; reflexivity. Qed.
Lemma set_usec_sec m p s q : tv_sec (set_usec m p s q) = tv_sec (m q).
Proof. unfold set_usec, tset. destruct (Nat.eqb_spec q p) as [->|]; reflexivity. Qed.
Lemma set_sec_same m p s : tv_sec (set_sec m p s p) = s.
Proof. unfold set_sec. now rewrite tset_same. Qed.
Lemma set_usec_same m p s : tv_usec (set_usec m p s p) = s.
Proof. unfold set_usec. now rewrite tset_same. Qed.
Lemma set_oth m p s u q : q <> p -> set_usec (set_sec m p s) p u q = m q.
Proof. intros H. unfold set_usec, set_sec. now rewrite !tset_other by exact H. Qed.

(** at, t1, t2 may be equal pointers. *)
Lemma add_correct m a t1 t2 : normal (m t1) -> normal (m t2) ->
  longp (tv_sec (m t1) + tv_sec (m t2)) -> longp (tv_sec (m t1) + tv_sec (m t2) + 1) ->
  exists m', zt_add_time 1 m a t1 t2 = Ok m' /\
    usecs (m' a) = usecs (m t1) + usecs (m t2) /\ normal (m' a) /\ only_changed a m m'.
Proof.
  unfold normal. intros N1 N2 L1 L2. unfold zt_add_time.
  rewrite lck_ok by exact L1. cbn [obind]. rewrite !set_sec_usec.
  rewrite lck_ok by (unfold longp; lia). cbn [obind].
  set (m2 := set_usec _ _ _).
  assert (Eu : tv_usec (m2 a) = tv_usec (m t1) + tv_usec (m t2)) by (unfold m2; apply set_usec_same).
  assert (Es : tv_sec (m2 a) = tv_sec (m t1) + tv_sec (m t2)) by (unfold m2; rewrite set_usec_sec; apply set_sec_same).
  destruct (carry_runs 1 m2 a) as [m' H]; try (rewrite ?Eu, ?Es; unfold longp in *; lia).
  exists m'. split; [exact H|]. apply carry_ok in H; [|lia]. destruct H as (A & B & C).
  split; [|split].
  - rewrite A. unfold usecs. rewrite Eu, Es. lia.
  - exact B.
  - intros q Hq. rewrite C by exact Hq. unfold m2. now apply set_oth.
Qed.

Lemma sub_correct m a t1 t2 : normal (m t1) -> normal (m t2) ->
  longp (tv_sec (m t1) - tv_sec (m t2)) -> longp (tv_sec (m t1) - tv_sec (m t2) - 1) ->
  exists m', zt_sub_time 1 m a t1 t2 = Ok m' /\
    usecs (m' a) = usecs (m t1) - usecs (m t2) /\ normal (m' a) /\ only_changed a m m'.
Proof.
  unfold normal. intros N1 N2 L1 L2. unfold zt_sub_time.
  rewrite lck_ok by exact L1. cbn [obind]. rewrite !set_sec_usec.
  rewrite lck_ok by (unfold longp; lia). cbn [obind].
  set (m2 := set_usec _ _ _).
  assert (Eu : tv_usec (m2 a) = tv_usec (m t1) - tv_usec (m t2)) by (unfold m2; apply set_usec_same).
  assert (Es : tv_sec (m2 a) = tv_sec (m t1) - tv_sec (m t2)) by (unfold m2; rewrite set_usec_sec; apply set_sec_same).
  destruct (borrow_runs 1 m2 a) as [m' H]; try (rewrite ?Eu, ?Es; unfold longp in *; lia).
  exists m'. split; [exact H|]. apply borrow_ok in H; [|lia]. destruct H as (A & B & C).
  split; [|split].
  - rewrite A. unfold usecs. rewrite Eu, Es. lia.
  - exact B.
  - intros q Hq. rewrite C by exact Hq. unfold m2. now apply set_oth.
Qed.

Lemma diff_correct m a t1 t2 : normal (m t1) -> normal (m t2) ->
  longp (tv_sec (m t2) - tv_sec (m t1)) -> longp (tv_sec (m t2) - tv_sec (m t1) - 1) ->
  exists m', zt_diff_time 1 m a t1 t2 = Ok m' /\
    usecs (m' a) = usecs (m t2) - usecs (m t1) /\ normal (m' a) /\ only_changed a m m'.
Proof. intros. now apply (sub_correct m a t2 t1). Qed.

(** Arbitrary (not normalised) microseconds, whatever the number of iterations. *)
Lemma add_any fuel m a t1 t2 m' : 0 <= tv_usec (m t1) + tv_usec (m t2) ->
  zt_add_time fuel m a t1 t2 = Ok m' ->
  usecs (m' a) = usecs (m t1) + usecs (m t2) /\ normal (m' a) /\ only_changed a m m'.
Proof.
  intros H0 H. unfold zt_add_time in H.
  apply obind_ok in H. destruct H as (s & Hs & H). apply obind_ok in H. destruct H as (u & Hu & H).
  apply lck_inv in Hs, Hu. destruct Hs as [-> _], Hu as [-> _]. rewrite !set_sec_usec in H.
  set (m2 := set_usec _ _ _) in H.
  assert (Eu : tv_usec (m2 a) = tv_usec (m t1) + tv_usec (m t2)) by (unfold m2; apply set_usec_same).
  assert (Es : tv_sec (m2 a) = tv_sec (m t1) + tv_sec (m t2)) by (unfold m2; rewrite set_usec_sec; apply set_sec_same).
  apply carry_ok in H; [|lia]. destruct H as (A & B & C).
  split; [|split].
  - rewrite A. unfold usecs. rewrite Eu, Es. lia.
  - exact B.
  - intros q Hq. rewrite C by exact Hq. unfold m2. now apply set_oth.
Qed.

Lemma cmp_correct m t1 t2 : normal (m t1) -> normal (m t2) -> longp (tv_sec (m t1) - tv_sec (m t2)) ->
  exists r, zt_cmp_time m t1 t2 = Ok r /\ Z.sgn r = Z.sgn (usecs (m t1) - usecs (m t2)).
Proof.
  unfold normal. intros N1 N2 L. unfold zt_cmp_time. rewrite lck_ok by exact L. cbn [obind].
  destruct (Z.eqb_spec (tv_sec (m t1) - tv_sec (m t2)) 0) as [E|E]; cbn [negb].
  - rewrite lck_ok by (unfold longp; lia). eexists. split; [reflexivity|].
    f_equal. unfold usecs. lia.
  - eexists. split; [reflexivity|]. unfold usecs.
    destruct (Z_lt_dec (tv_sec (m t1) - tv_sec (m t2)) 0).
    + rewrite !Z.sgn_neg by lia. reflexivity.
    + rewrite !Z.sgn_pos by lia. reflexivity.
Qed.

(** Specification of running a function k times. *)
Fixpoint run_times {S R : Type} (test : S -> S * R) (k : nat) (st : S) : S * list R :=
  match k with
  | O => (st, [])
  | Datatypes.S k' => let '(st', r) := test st in let '(st2, rs) := run_times test k' st' in (st2, r :: rs)
  end.
Fixpoint last_opt {R} (l : list R) (d : option R) : option R :=
  match l with [] => d | x :: r => last_opt r (Some x) end.

Lemma time_loop_runs {S R} (test : S -> S * R) n : n < 2147483647 -> forall k i st ret fuel, 0 <= i -> Z.to_nat (n + 1 - i) = k -> (k <= fuel)%nat ->
  time_loop test fuel i n st ret = Ok (fst (run_times test k st), last_opt (snd (run_times test k st)) ret).
Proof.
  intros N. induction k as [|k IH]; intros i st ret fuel I E F.
  - destruct fuel; cbn [time_loop run_times fst snd last_opt]; rewrite (proj2 (Z.leb_gt i n)) by lia; reflexivity.
  - destruct fuel as [|fuel]; [lia|]. cbn [time_loop run_times]. rewrite (proj2 (Z.leb_le i n)) by lia. destruct (test st) as [st' r]. unfold ick. rewrite (proj2 (Z.leb_le (i + 1) 2147483647)) by lia. cbn [obind].
    rewrite (IH (i + 1) st' (Some r) fuel) by lia. destruct (run_times test k st') as [s2 rs]. reflexivity.
Qed.
Lemma time_loop_over {S R} (test : S -> S * R) : forall k i st ret fuel, 0 <= i <= 2147483647 -> Z.to_nat (2147483647 - i) = k -> (k < fuel)%nat ->
  time_loop test fuel i 2147483647 st ret = UB.
Proof.
  induction k as [|k IH]; intros i st ret fuel I E F; (destruct fuel as [|fuel]; [lia|]); cbn [time_loop]; rewrite (proj2 (Z.leb_le i 2147483647)) by lia; destruct (test st) as [st' r]; unfold ick.
  - rewrite (proj2 (Z.leb_gt (i + 1) 2147483647)) by lia. reflexivity.
  - rewrite (proj2 (Z.leb_le (i + 1) 2147483647)) by lia. cbn [obind]. apply IH; lia.
Qed.
Lemma time_calls_actual {S R} (test : S -> S * R) n st fuel : n < 2147483647 -> (Z.to_nat (n + 1) <= fuel)%nat ->
  time_calls test fuel true n st =
  let k := if n <=? 0 then O else Z.to_nat (n + 1) in
  Ok (fst (run_times test k st), last_opt (snd (run_times test k st)) None).
Proof.
  intros N F. unfold time_calls. cbn [andb]. destruct (Z.eqb_spec n 0) as [->|E]; cbn [negb]; [reflexivity|].
  destruct (Z.leb_spec n 0) as [L|L].
  - rewrite (time_loop_runs test n N 0); [reflexivity|lia|lia|lia].
  - cbv zeta. apply time_loop_runs; lia.
Qed.
Lemma borrow_more fuel f m p : (fuel <= f)%nat -> forall m', borrow fuel m p = Ok m' -> borrow f m p = Ok m'.
Proof.
  revert f m. induction fuel as [|fuel IH]; intros f m L m'; destruct f as [|f]; cbn [borrow]; destruct (_ <? 0); try discriminate; try trivial; [lia|]. destruct (lck _) as [s| | |]; cbn [obind]; try discriminate. cbv zeta. destruct (lck _) as [u| | |]; cbn [obind]; try discriminate. apply IH. lia.
Qed.
Lemma sub_more f m a t1 t2 m' : (1 <= f)%nat -> zt_sub_time 1 m a t1 t2 = Ok m' -> zt_sub_time f m a t1 t2 = Ok m'.
Proof. intros L. unfold zt_sub_time. destruct (lck _) as [s| | |]; cbn [obind]; try discriminate. cbv zeta. destruct (lck _) as [u| | |]; cbn [obind]; try discriminate. now apply borrow_more. Qed.
