From Verif Require Import Prelude Bits RandModel.
Open Scope Z_scope.

(** ---- specification: MT19937 (Matsumoto, Nishimura) ---- *)
(** multiplication by the matrix A *)
Definition twist (y : Z) : Z := Z.lxor (y / 2) (if Z.odd y then 0x9908b0df else 0).
(** x_{k+624} = x_{k+397} xor (upper bit of x_k, lower 31 bits of x_{k+1}) A *)
Definition mt_recurrence (x : nat -> Z) : Prop :=
  forall k : nat, x (k + 624)%nat = Z.lxor (x (k + 397)%nat) (twist (x k / 2 ^ 31 mod 2 * 2 ^ 31 + x (k + 1)%nat mod 2 ^ 31)).
Definition mt_seeded (seed : Z) (x : nat -> Z) : Prop :=
  x 0%nat = seed /\ forall i : nat, (i < 623)%nat -> x (S i) = (1812433253 * Z.lxor (x i) (x i / 2 ^ 30) + Z.of_nat (S i)) mod 2 ^ 32.
Definition mt_temper (y : Z) : Z :=
  let y := Z.lxor y (y / 2 ^ 11) in
  let y := Z.lxor y (Z.land (y * 2 ^ 7) 0x9d2c5680) in
  let y := Z.lxor y (Z.land (y * 2 ^ 15) 0xefc60000) in
  Z.lxor y (y / 2 ^ 18).

Definition w32 (x : Z) : Prop := 0 <= x < 2 ^ 32.
Lemma land_small x m : 0 <= m < 2 ^ 32 -> Z.land (x mod M32) m = Z.land x m.
Proof.
  intros M. change M32 with (2 ^ 32). rewrite <- Z.land_ones by lia. rewrite <- Z.land_assoc. f_equal. rewrite Z.land_comm, Z.land_ones by lia. apply Z.mod_small. exact M.
Qed.
Lemma temper_eq y : temper y = mt_temper y.
Proof.
  unfold temper, mt_temper. cbv zeta. rewrite !land_small by lia. rewrite !Z.shiftr_div_pow2 by lia. rewrite !Z.shiftl_mul_pow2 by lia. reflexivity.
Qed.
Lemma div_w32 y k : w32 y -> 0 <= k -> w32 (y / 2 ^ k).
Proof. intros [A B] K. unfold w32. assert (0 < 2 ^ k) by (apply Z.pow_pos_nonneg; lia). split; [apply Z.div_pos; lia|]. apply Z.div_lt_upper_bound; nia. Qed.
Lemma land_w32 x m : w32 m -> w32 (Z.land x m).
Proof. intros M. unfold w32 in *. pose proof (land_le x m ltac:(lia)). lia. Qed.
Lemma lxor_w32 x y : w32 x -> w32 y -> w32 (Z.lxor x y).
Proof. intros. apply lxor_lt; [lia|assumption|assumption]. Qed.
Lemma temper_w32 y : w32 y -> w32 (temper y).
Proof.
  intros Y. rewrite temper_eq. unfold mt_temper. cbv zeta.
  repeat first [apply lxor_w32 | apply div_w32; [|lia] | apply land_w32; unfold w32; lia | exact Y].
Qed.

Section Seq.
Variable x : nat -> Z.
Hypothesis REC : mt_recurrence x.
(** words i < kk of the array are already those of the next block *)
Definition holds (base kk : nat) (l : list Z) : Prop :=
  length l = 624%nat /\ forall i, (i < 624)%nat -> nth_error l i = Some (x (base + i + (if (i <? kk)%nat then 624 else 0))%nat).
Lemma gen_step base kk l k1 km : (kk < 624)%nat -> holds base kk l -> nth_error l k1 = Some (x (base + kk + 1)%nat) -> nth_error l km = Some (x (base + kk + 397)%nat) ->
  exists l', gen l kk k1 km = Ok l' /\ holds base (S kk) l'.
Proof.
  intros K [L H] H1 HM. unfold gen, rd. rewrite (H kk K), H1, HM. replace (kk <? kk)%nat with false by lia. rewrite Nat.add_0_r. cbn [obind]. cbv zeta.
  set (v := Z.lxor _ _). assert (V : v = x (base + kk + 624)%nat).
  { unfold v. rewrite REC. unfold twist. rewrite <- Z.lxor_assoc.
    assert (Y : Z.lor (Z.land (x (base + kk)%nat) UPPER_MASK) (Z.land (x (base + kk + 1)%nat) LOWER_MASK) = x (base + kk)%nat / 2 ^ 31 mod 2 * 2 ^ 31 + x (base + kk + 1)%nat mod 2 ^ 31).
    { change UPPER_MASK with (Z.ones 1 * 2 ^ 31). change LOWER_MASK with (Z.ones 31). rewrite land_high, Z.land_ones by lia. change (2 ^ 1) with 2. apply lor_low; [lia|]. apply Z.mod_pos_bound. lia. }
    rewrite Y. set (y := _ + _). rewrite Z.shiftr_div_pow2 by lia. change (2 ^ 1) with 2. f_equal. unfold mag01. change 1 with (Z.ones 1). rewrite Z.land_ones by lia. change (2 ^ 1) with 2.
    rewrite Zmod_odd. now destruct (Z.odd y). }
  unfold wr. replace (kk <? length l)%nat with true by lia. exists (upd l kk v). split; [reflexivity|]. split; [now rewrite upd_length|].
  intros i I. rewrite upd_nth_error. destruct (Nat.eqb_spec i kk) as [->|N].
  - replace (kk <? length l)%nat with true by lia. replace (kk <? S kk)%nat with true by lia. now rewrite V.
  - rewrite (H i I). replace (i <? S kk)%nat with (i <? kk)%nat by lia. reflexivity.
Qed.
Lemma gen1_ok base : forall n kk l, (kk + n <= 227)%nat -> holds base kk l -> exists l', gen1 n kk l = Ok l' /\ holds base (kk + n) l'.
Proof.
  induction n as [|n IH]; intros kk l B H; cbn [gen1].
  - exists l. rewrite Nat.add_0_r. auto.
  - destruct (gen_step base kk l (kk + 1) (kk + MIDDLE_WORD)) as (l1 & E1 & H1); [lia|exact H| | |].
    + rewrite (proj2 H) by lia. do 2 f_equal. replace (kk + 1 <? kk)%nat with false by lia. lia.
    + unfold MIDDLE_WORD. rewrite (proj2 H) by lia. do 2 f_equal. replace (kk + 397 <? kk)%nat with false by lia. lia.
    + rewrite E1. cbn [obind]. destruct (IH (S kk) l1 ltac:(lia) H1) as (l' & E & H'). exists l'. split; [exact E|]. now replace (kk + S n)%nat with (S kk + n)%nat by lia.
Qed.
Lemma gen2_ok base : forall n kk l, (227 <= kk)%nat -> (kk + n <= 623)%nat -> holds base kk l -> exists l', gen2 n kk l = Ok l' /\ holds base (kk + n) l'.
Proof.
  induction n as [|n IH]; intros kk l A B H; cbn [gen2].
  - exists l. rewrite Nat.add_0_r. auto.
  - destruct (gen_step base kk l (kk + 1) (kk - (RECURRENCE - MIDDLE_WORD))) as (l1 & E1 & H1); [lia|exact H| | |].
    + rewrite (proj2 H) by lia. do 2 f_equal. replace (kk + 1 <? kk)%nat with false by lia. lia.
    + change (RECURRENCE - MIDDLE_WORD)%nat with 227%nat. rewrite (proj2 H) by lia. do 2 f_equal. replace (kk - 227 <? kk)%nat with true by lia. lia.
    + rewrite E1. cbn [obind]. destruct (IH (S kk) l1 ltac:(lia) ltac:(lia) H1) as (l' & E & H'). exists l'. split; [exact E|]. now replace (kk + S n)%nat with (S kk + n)%nat by lia.
Qed.
Definition ready (s : rstate) (d : nat) : Prop :=
  exists base, holds base 0 (mt s) /\ (mti s <= 624)%nat /\ (base + mti s = 624 + d)%nat /\ initialized s = INITIALIZED.
Lemma draw_ok now s d : ready s d -> exists s', uint32 now s = Ok (temper (x (624 + d)%nat), s') /\ ready s' (S d).
Proof.
  intros (base & H & LE & P & I). unfold uint32. rewrite I, Z.eqb_refl. cbn [obind].
  assert (R : exists s1 base1, refill s = Ok s1 /\ holds base1 0 (mt s1) /\ (mti s1 < 624)%nat /\ (base1 + mti s1 = 624 + d)%nat /\ initialized s1 = INITIALIZED).
  { unfold refill. change RECURRENCE with 624%nat. destruct (Nat.leb_spec 624 (mti s)) as [G|G].
    - destruct (gen1_ok base 227 0 (mt s) ltac:(lia) H) as (l1 & E1 & H1). change (624 - MIDDLE_WORD)%nat with 227%nat. rewrite E1. cbn [obind].
      destruct (gen2_ok base 396 227 l1 ltac:(lia) ltac:(lia) H1) as (l2 & E2 & H2). change (624 - 1 - 227)%nat with 396%nat. rewrite E2. cbn [obind].
      change (227 + 396)%nat with 623%nat in H2.
      destruct (gen_step base 623 l2 0 (MIDDLE_WORD - 1) ltac:(lia) H2) as (l3 & E3 & H3).
      + rewrite (proj2 H2) by lia. replace (0 <? 623)%nat with true by lia. do 2 f_equal. lia.
      + change (MIDDLE_WORD - 1)%nat with 396%nat. rewrite (proj2 H2) by lia. replace (396 <? 623)%nat with true by lia. do 2 f_equal. lia.
      + change (624 - 1)%nat with 623%nat. rewrite E3. cbn [obind]. exists (mkr l3 0 (initialized s)), (base + 624)%nat. split; [reflexivity|]. cbn [mt mti initialized].
        split; [|split; [lia|split; [lia|exact I]]]. split; [apply H3|]. intros i Hi. rewrite (proj2 H3) by exact Hi. replace (i <? 624)%nat with true by lia. replace (i <? 0)%nat with false by lia. do 2 f_equal. lia.
    - exists s, base. split; [reflexivity|]. split; [exact H|]. split; [lia|]. split; [exact P|exact I]. }
  destruct R as (s1 & base1 & E & H1 & M1 & P1 & I1). rewrite E. cbn [obind]. unfold rd. rewrite (proj2 H1) by exact M1. replace (mti s1 <? 0)%nat with false by lia. cbn [obind].
  eexists. split; [do 2 f_equal; do 2 f_equal; lia|]. exists base1. cbn [mt mti initialized]. split; [exact H1|]. split; [lia|]. split; [lia|exact I1].
Qed.
(** n draws one after the other, at whatever times *)
Fixpoint draws (times : list Z) (s : rstate) : outcome (list Z * rstate) :=
  match times with [] => Ok ([], s) | now :: r => ' (v, s) <- uint32 now s ;; ' (vs, s) <- draws r s ;; Ok (v :: vs, s) end.
Lemma draws_ok : forall times s d, ready s d -> exists s', draws times s = Ok (map (fun i => mt_temper (x (624 + i)%nat)) (seq d (length times)), s') /\ ready s' (d + length times).
Proof.
  induction times as [|now times IH]; intros s d R; cbn [draws length seq map].
  - exists s. rewrite Nat.add_0_r. auto.
  - destruct (draw_ok now s d R) as (s1 & E1 & R1). rewrite E1. cbn [obind]. destruct (IH s1 (S d) R1) as (s' & E & R'). rewrite E. cbn [obind].
    exists s'. split; [now rewrite temper_eq|]. now replace (d + S (length times))%nat with (S d + length times)%nat by lia.
Qed.
End Seq.

(** ---- seeding ---- *)
Definition starts (x : nat -> Z) (n : nat) (l : list Z) : Prop := length l = 624%nat /\ forall i, (i < n)%nat -> nth_error l i = Some (x i).
Lemma wr_starts x n l v : (n < 624)%nat -> starts x n l -> v = x n -> wr l n v = Ok (upd l n v) /\ starts x (S n) (upd l n v).
Proof.
  intros N [L H] V. unfold wr. replace (n <? length l)%nat with true by lia. split; [reflexivity|]. split; [now rewrite upd_length|]. intros i I. rewrite upd_nth_error.
  destruct (Nat.eqb_spec i n) as [->|E]; [replace (n <? length l)%nat with true by lia; now rewrite V|apply H; lia].
Qed.
Lemma seed_loop_ok x seed : mt_seeded seed x -> forall n i l, (1 <= i)%nat -> (i + n = 624)%nat -> starts x i l -> exists l', seed_loop n i l = Ok l' /\ starts x 624 l'.
Proof.
  intros [_ SEED]. induction n as [|n IH]; intros i l I N H; cbn [seed_loop].
  - exists l. split; [reflexivity|]. now replace 624%nat with i by lia.
  - unfold rd. rewrite (proj2 H) by lia. cbn [obind]. destruct i as [|i]; [lia|]. replace (S i - 1)%nat with i by lia.
    set (v := Z.land _ _). destruct (wr_starts x (S i) l v ltac:(lia) H) as [E1 H1].
    { unfold v. rewrite SEED by lia. change 0xffffffff with (Z.ones 32). rewrite Z.land_ones by lia. change M32 with (2 ^ 32). rewrite Z.mod_mod by lia. rewrite Z.shiftr_div_pow2 by lia. reflexivity. }
    rewrite E1. cbn [obind]. apply IH; [lia|lia|exact H1].
Qed.
Lemma srandom_ok x seed s : w32 seed -> mt_seeded seed x -> length (mt s) = 624%nat -> exists s', srandom s seed = Ok s' /\ starts x 624 (mt s') /\ ready x s' 0.
Proof.
  intros W M L. unfold srandom. destruct (wr_starts x 0 (mt s) (Z.land seed 0xffffffff) ltac:(lia)) as [E1 H1].
  { split; [exact L|]. intros i I. lia. }
  { change 0xffffffff with (Z.ones 32). rewrite Z.land_ones by lia. rewrite Z.mod_small by exact W. symmetry. apply M. }
  rewrite E1. cbn [obind]. change (RECURRENCE - 1)%nat with 623%nat. destruct (seed_loop_ok x seed M 623 1 _ ltac:(lia) ltac:(lia) H1) as (l & E2 & H2). rewrite E2. cbn [obind].
  eexists. split; [reflexivity|]. cbn [mt]. split; [exact H2|]. exists 0%nat. cbn [mt mti initialized]. split; [|split; [unfold RECURRENCE; lia|split; [unfold RECURRENCE; lia|reflexivity]]].
  split; [apply H2|]. intros i I. rewrite (proj2 H2) by exact I. replace (i <? 0)%nat with false by lia. f_equal. f_equal. lia.
Qed.

(** ---- the sequence exists: extend any 624 words ---- *)
Fixpoint mt_list (n : nat) (l : list Z) {struct n} : list Z :=
  match n with
  | O => l
  | S n => let k := (length l - 624)%nat in
      mt_list n (l ++ [Z.lxor (nth (k + 397) l 0) (twist (nth k l 0 / 2 ^ 31 mod 2 * 2 ^ 31 + nth (k + 1) l 0 mod 2 ^ 31))])
  end.
Definition mt_from (l : list Z) (k : nat) : Z := nth k (mt_list k l) 0.
Lemma mt_list_prefix : forall n l k, (k < length l)%nat -> nth k (mt_list n l) 0 = nth k l 0.
Proof. induction n as [|n IH]; intros l k K; cbn [mt_list]; [reflexivity|]. cbv zeta. rewrite IH by (rewrite app_length; cbn [length]; lia). now rewrite app_nth1. Qed.
Lemma mt_list_length : forall n l, length (mt_list n l) = (length l + n)%nat.
Proof. induction n as [|n IH]; intros l; cbn [mt_list]; [lia|]. cbv zeta. rewrite IH, app_length. cbn [length]. lia. Qed.
Lemma mt_list_plus : forall a b l, mt_list (a + b) l = mt_list b (mt_list a l).
Proof. induction a as [|a IH]; intros b l; [reflexivity|]. cbn [Nat.add mt_list]. cbv zeta. apply IH. Qed.
Lemma mt_from_stable l k n : length l = 624%nat -> (k < 624 + n)%nat -> nth k (mt_list n l) 0 = mt_from l k.
Proof.
  intros L K. unfold mt_from. destruct (Nat.le_ge_cases n k) as [H|H].
  - replace (mt_list k l) with (mt_list (n + (k - n)) l) by (f_equal; lia). rewrite mt_list_plus. rewrite (mt_list_prefix (k - n) (mt_list n l)); [reflexivity|]. rewrite mt_list_length. lia.
  - replace (mt_list n l) with (mt_list (k + (n - k)) l) by (f_equal; lia). rewrite mt_list_plus. rewrite (mt_list_prefix (n - k) (mt_list k l)); [reflexivity|]. rewrite mt_list_length. lia.
Qed.
Lemma mt_from_rec l : length l = 624%nat -> mt_recurrence (mt_from l).
Proof.
  intros L k. unfold mt_from at 1. replace (k + 624)%nat with (k + 1 + 623)%nat at 2 by lia. rewrite mt_list_plus. rewrite mt_list_prefix by (rewrite mt_list_length; lia).
  rewrite mt_list_plus. cbn [mt_list]. cbv zeta. rewrite mt_list_length, L. rewrite app_nth2 by (rewrite mt_list_length; lia). rewrite mt_list_length, L.
  replace (k + 624 - (624 + k))%nat with 0%nat by lia. cbn [nth]. replace (624 + k - 624)%nat with k by lia. rewrite !mt_from_stable by lia. reflexivity.
Qed.
Lemma mt_from_start l : length l = 624%nat -> starts (mt_from l) 624 l.
Proof.
  intros L. split; [exact L|]. intros i I. rewrite <- (mt_from_stable l i 0 L) by lia. cbn [mt_list]. apply nth_error_nth'. lia.
Qed.
(** the seeded start *)
Fixpoint seed_list (n : nat) (l : list Z) {struct n} : list Z :=
  match n with O => l | S n => let p := last l 0 in seed_list n (l ++ [(1812433253 * Z.lxor p (p / 2 ^ 30) + Z.of_nat (length l)) mod 2 ^ 32]) end.
Lemma seed_list_spec : forall n l, l <> [] -> length (seed_list n l) = (length l + n)%nat /\ (forall k, (k < length l)%nat -> nth k (seed_list n l) 0 = nth k l 0) /\
  (forall i, (length l <= S i < length l + n)%nat -> let q := seed_list n l in nth (S i) q 0 = (1812433253 * Z.lxor (nth i q 0) (nth i q 0 / 2 ^ 30) + Z.of_nat (S i)) mod 2 ^ 32).
Proof.
  induction n as [|n IH]; intros l N; cbn [seed_list].
  - split; [lia|]. split; [reflexivity|]. lia.
  - cbv zeta. set (v := (_ + _) mod _). destruct (IH (l ++ [v])) as (A & B & C); [destruct l; discriminate|]. rewrite app_length in *. cbn [length] in *. split; [lia|]. split.
    + intros k K. rewrite B by lia. now rewrite app_nth1.
    + intros i I. destruct (Nat.eq_dec (S i) (length l)) as [E|E]; [|apply C; lia]. rewrite !B by lia. rewrite app_nth2, E, Nat.sub_diag by lia. cbn [nth].
      rewrite (app_nth1 l [v]) by lia. unfold v. assert (LS : last l 0 = nth i l 0); [|now rewrite LS].
      destruct (exists_last N) as (l' & z & ->). rewrite last_last. rewrite app_length in E. cbn [length] in E. rewrite app_nth2 by lia. now replace (i - length l')%nat with 0%nat by lia.
Qed.
Definition mt19937 (seed : Z) : nat -> Z := mt_from (seed_list 623 [seed]).
Lemma mt19937_ok seed : mt_seeded seed (mt19937 seed) /\ mt_recurrence (mt19937 seed).
Proof.
  destruct (seed_list_spec 623 [seed] ltac:(discriminate)) as (A & B & C). change (length [seed] + 623)%nat with 624%nat in *. split; [|now apply mt_from_rec].
  unfold mt19937. split.
  - rewrite <- (mt_from_stable _ 0 0 A) by lia. cbn [mt_list]. rewrite B by (cbn [length]; lia). reflexivity.
  - intros i I. rewrite <- !(mt_from_stable _ _ 0 A) by lia. cbn [mt_list]. apply C. cbn [length]. lia.
Qed.

(** ---- ranges ---- *)
Lemma twist_w32 y : w32 y -> w32 (twist y).
Proof. intros Y. unfold twist. apply lxor_w32; [apply (div_w32 y 1 Y); lia|]. destruct (Z.odd y); unfold w32; lia. Qed.
Lemma rec_w32 x : mt_recurrence x -> (forall i, (i < 624)%nat -> w32 (x i)) -> forall k, w32 (x k).
Proof.
  intros R I k. induction k as [k IH] using (well_founded_induction lt_wf). destruct (Nat.lt_ge_cases k 624) as [L|L]; [now apply I|].
  replace k with (k - 624 + 624)%nat by lia. rewrite R. apply lxor_w32; [apply IH; lia|]. apply twist_w32. unfold w32.
  pose proof (Z.mod_pos_bound (x (k - 624)%nat / 2 ^ 31) 2 ltac:(lia)). pose proof (Z.mod_pos_bound (x (k - 624 + 1)%nat) (2 ^ 31) ltac:(lia)). lia.
Qed.

(** ---- seeding by an array ---- *)
Definition arr (l : list Z) : Prop := length l = 624%nat /\ Forall w32 l.
Lemma arr_rd l i : arr l -> (i < 624)%nat -> exists v, rd l i = Ok v /\ w32 v.
Proof. intros [L F] I. unfold rd. destruct (nth_error l i) as [v|] eqn:E; [|apply nth_error_None in E; lia]. exists v. split; [reflexivity|]. rewrite Forall_forall in F. apply F. eapply nth_error_In; eauto. Qed.
Lemma Forall_upd (P : Z -> Prop) l : forall i v, Forall P l -> P v -> Forall P (upd l i v).
Proof. induction l as [|y l IH]; intros [|i] v F V; cbn [upd]; auto; inversion F; subst; constructor; auto. Qed.
Lemma arr_wr l i v : arr l -> (i < 624)%nat -> w32 v -> exists l', wr l i v = Ok l' /\ arr l' /\ l' = upd l i v.
Proof. intros [L F] I V. unfold wr. replace (i <? length l)%nat with true by lia. eexists. split; [reflexivity|]. split; [|reflexivity]. split; [now rewrite upd_length|now apply Forall_upd]. Qed.
Lemma mod_w32 v : w32 (v mod M32).
Proof. apply Z.mod_pos_bound. reflexivity. Qed.
Lemma wrap_ok l i : arr l -> (1 <= i <= 624)%nat -> exists l' i', (if Nat.leb RECURRENCE i then z <- rd l (RECURRENCE - 1) ;; l <- wr l 0 z ;; Ok (l, 1%nat) else Ok (l, i)) = Ok (l', i') /\ arr l' /\ (1 <= i' <= 623)%nat.
Proof.
  intros A I. change RECURRENCE with 624%nat. destruct (Nat.leb_spec 624 i).
  - destruct (arr_rd l 623 A ltac:(lia)) as (z & E & W). change (624 - 1)%nat with 623%nat. rewrite E. cbn [obind]. destruct (arr_wr l 0 z A ltac:(lia) W) as (l' & E' & A' & _). rewrite E'. cbn [obind]. exists l', 1%nat. split; [reflexivity|]. split; [exact A'|lia].
  - exists l, i. split; [reflexivity|]. split; [exact A|lia].
Qed.
Lemma init1_ok seed : seed <> [] -> forall k l i j, arr l -> (1 <= i <= 623)%nat -> (j < length seed)%nat -> exists l' i', init1 k l seed i j = Ok (l', i') /\ arr l' /\ (1 <= i' <= 623)%nat.
Proof.
  intros NE. assert (SL : (0 < length seed)%nat) by (destruct seed; [congruence|cbn; lia]).
  induction k as [|k IH]; intros l i j A I J; cbn [init1].
  - exists l, i. auto.
  - destruct (arr_rd l i A ltac:(lia)) as (a & Ea & _). destruct (arr_rd l (i - 1) A ltac:(lia)) as (p & Ep & _). rewrite Ea, Ep. cbn [obind]. unfold rd at 1. destruct (nth_error seed j) as [sd|] eqn:Es; [|apply nth_error_None in Es; lia]. cbn [obind].
    destruct (arr_wr l i ((Z.lxor a (Z.lxor p (Z.shiftr p 30) * 1664525) + sd + Z.of_nat j) mod M32) A ltac:(lia) (mod_w32 _)) as (l1 & E1 & A1 & _). rewrite E1. cbn [obind]. cbv zeta.
    destruct (wrap_ok l1 (S i) A1 ltac:(lia)) as (l2 & i2 & E2 & A2 & I2). rewrite E2. cbn [obind]. apply IH; auto. destruct (Nat.leb_spec (length seed) (S j)); lia.
Qed.
Lemma init2_ok : forall k l i, arr l -> (1 <= i <= 623)%nat -> exists l', init2 k l i = Ok l' /\ arr l'.
Proof.
  induction k as [|k IH]; intros l i A I; cbn [init2].
  - exists l. auto.
  - destruct (arr_rd l i A ltac:(lia)) as (a & Ea & _). destruct (arr_rd l (i - 1) A ltac:(lia)) as (p & Ep & _). rewrite Ea, Ep. cbn [obind].
    destruct (arr_wr l i ((Z.lxor a (Z.lxor p (Z.shiftr p 30) * 1566083941) - Z.of_nat i) mod M32) A ltac:(lia) (mod_w32 _)) as (l1 & E1 & A1 & _). rewrite E1. cbn [obind]. cbv zeta.
    destruct (wrap_ok l1 (S i) A1 ltac:(lia)) as (l2 & i2 & E2 & A2 & I2). rewrite E2. cbn [obind]. apply IH; auto.
Qed.
Lemma seeded_w32 seed x : w32 seed -> mt_seeded seed x -> forall i, (i < 624)%nat -> w32 (x i).
Proof. intros W [A B] [|i] I; [now rewrite A|]. rewrite B by lia. apply mod_w32. Qed.
Lemma starts_arr x l : starts x 624 l -> (forall i, (i < 624)%nat -> w32 (x i)) -> arr l.
Proof.
  intros [L H] W. split; [exact L|]. apply Forall_forall. intros v Hv. apply In_nth_error in Hv. destruct Hv as [i Hi]. assert (I : (i < 624)%nat) by (rewrite <- L; apply nth_error_Some; congruence).
  rewrite H in Hi by exact I. injection Hi as <-. now apply W.
Qed.
Lemma initstate_ok s seed : length (mt s) = 624%nat -> seed <> [] ->
  exists s', initstate s seed = Ok s' /\ arr (mt s') /\ nth_error (mt s') 0 = Some (2 ^ 31) /\ ready (mt_from (mt s')) s' 0.
Proof.
  intros L NE. unfold initstate. assert (W : w32 19650218) by (unfold w32; lia). destruct (mt19937_ok 19650218) as [M R].
  destruct (srandom_ok _ _ s W M L) as (s1 & E1 & ST & _). rewrite E1. cbn [obind].
  pose proof (starts_arr _ _ ST (seeded_w32 _ _ W M)) as A1.
  destruct (init1_ok seed NE (Nat.max RECURRENCE (length seed)) (mt s1) 1 0 A1 ltac:(lia) ltac:(destruct seed; [congruence|cbn; lia])) as (l2 & i2 & E2 & A2 & I2). rewrite E2. cbn [obind].
  destruct (init2_ok (RECURRENCE - 1) l2 i2 A2 I2) as (l3 & E3 & A3). rewrite E3. cbn [obind].
  destruct (arr_wr l3 0 0x80000000 A3 ltac:(lia) ltac:(unfold w32; lia)) as (l4 & E4 & A4 & U). rewrite E4. cbn [obind].
  eexists. split; [reflexivity|]. cbn [mt]. split; [exact A4|]. split; [subst l4; rewrite upd_nth_error; cbn [Nat.eqb]; replace (0 <? length l3)%nat with true by (destruct A3; lia); reflexivity|].
  destruct A4 as [L4 _]. exists 0%nat. cbn [mt mti initialized].
  assert (MI : mti s1 = 624%nat /\ initialized s1 = INITIALIZED).
  { unfold srandom in E1. destruct (wr (mt s) 0 (Z.land 19650218 4294967295)) as [q| | |]; try discriminate. cbn [obind] in E1. destruct (seed_loop (RECURRENCE - 1) 1 q); try discriminate. cbn [obind] in E1. injection E1 as <-. split; reflexivity. }
  destruct MI as [MI1 MI2]. rewrite MI1, MI2. split; [|split; [lia|split; [lia|reflexivity]]]. split; [exact L4|]. intros i I. rewrite (proj2 (mt_from_start l4 L4)) by exact I. replace (i <? 0)%nat with false by lia. f_equal. f_equal. lia.
Qed.
