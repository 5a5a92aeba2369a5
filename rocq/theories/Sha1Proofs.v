From Verif Require Import Prelude Bits Sha1Spec Sha1Model.
Open Scope Z_scope.

Definition w32 (x : Z) : Prop := 0 <= x < W32.
Lemma W32_eq : W32 = 2 ^ 32. Proof. reflexivity. Qed.

Lemma rol_eq v b : w32 v -> 0 < b < 32 -> rol v b = rotl b v.
Proof.
  intros V B. unfold rol, rotl, w32 in *. rewrite W32_eq in *. rewrite Z.shiftl_mul_pow2 by lia. rewrite Z.shiftr_div_pow2 by lia.
  assert (P : 2 ^ 32 = 2 ^ (32 - b) * 2 ^ b) by (rewrite <- Z.pow_add_r by lia; f_equal; lia).
  assert (P1 : 0 < 2 ^ b) by (apply Z.pow_pos_nonneg; lia). assert (P2 : 0 < 2 ^ (32 - b)) by (apply Z.pow_pos_nonneg; lia).
  rewrite P at 1. rewrite Z.mul_mod_distr_r by lia. rewrite lor_low; [|lia|].
  - f_equal. rewrite P. now rewrite Z.mul_mod_distr_r by lia.
  - split; [apply Z.div_pos; lia|]. apply Z.div_lt_upper_bound; lia.
Qed.
Lemma rotl_range n x : w32 x -> 0 < n < 32 -> w32 (rotl n x).
Proof.
  intros V B. unfold rotl, w32 in *. rewrite W32_eq in *.
  assert (P : 2 ^ 32 = 2 ^ (32 - n) * 2 ^ n) by (rewrite <- Z.pow_add_r by lia; f_equal; lia).
  assert (P1 : 0 < 2 ^ n) by (apply Z.pow_pos_nonneg; lia). assert (P2 : 0 < 2 ^ (32 - n)) by (apply Z.pow_pos_nonneg; lia).
  assert (Q : 0 <= x / 2 ^ (32 - n) < 2 ^ n) by (split; [apply Z.div_pos; lia|apply Z.div_lt_upper_bound; lia]).
  assert (R : (x * 2 ^ n) mod 2 ^ 32 = (x mod 2 ^ (32 - n)) * 2 ^ n) by (rewrite P; now rewrite Z.mul_mod_distr_r by lia).
  rewrite R. assert (S : 0 <= x mod 2 ^ (32 - n) <= 2 ^ (32 - n) - 1) by (pose proof (Z.mod_pos_bound x _ P2); lia).
  assert (T : 0 <= x mod 2 ^ (32 - n) * 2 ^ n <= (2 ^ (32 - n) - 1) * 2 ^ n) by nia.
  rewrite P. lia.
Qed.
Lemma w32_log x : 0 <= x -> (w32 x <-> forall i, 32 <= i -> Z.testbit x i = false).
Proof.
  intros P. unfold w32. rewrite W32_eq. split.
  - intros [_ H] i I. destruct (Z.eq_dec x 0) as [->|N]; [apply Z.bits_0|]. apply Z.bits_above_log2; [exact P|]. assert (Z.log2 x < 32) by (apply Z.log2_lt_pow2; lia). lia.
  - intros H. split; [exact P|]. destruct (Z.eq_dec x 0) as [->|N]; [lia|]. apply Z.log2_lt_pow2; [lia|]. destruct (Z.lt_ge_cases (Z.log2 x) 32) as [L|L]; [exact L|].
    specialize (H _ L). rewrite Z.bit_log2 in H by lia. discriminate.
Qed.
Lemma lxor_w32 x y : w32 x -> w32 y -> w32 (Z.lxor x y).
Proof.
  intros X Y. assert (P : 0 <= Z.lxor x y) by (apply Z.lxor_nonneg; destruct X, Y; split; auto).
  apply w32_log; [exact P|]. intros i I. rewrite Z.lxor_spec. rewrite (proj1 (w32_log x ltac:(apply X)) X i I), (proj1 (w32_log y ltac:(apply Y)) Y i I). reflexivity.
Qed.
Lemma mod_w32 x : w32 (x mod W32).
Proof. apply Z.mod_pos_bound. reflexivity. Qed.

Lemma ch_eq w x y : Z.lxor (Z.land w (Z.lxor x y)) y = Ch w x y.
Proof. unfold Ch. apply Z.bits_inj'. intros i I. rewrite !Z.lxor_spec, !Z.land_spec, Z.lxor_spec, Z.lnot_spec by exact I. now destruct (Z.testbit w i), (Z.testbit x i), (Z.testbit y i). Qed.
Lemma maj_eq w x y : Z.lor (Z.land (Z.lor w x) y) (Z.land w x) = Maj w x y.
Proof. unfold Maj. apply Z.bits_inj'. intros i I. rewrite !Z.lxor_spec, !Z.lor_spec, !Z.land_spec, Z.lor_spec. now destruct (Z.testbit w i), (Z.testbit x i), (Z.testbit y i). Qed.

(** the byte swap *)
Definition byte (b : Z) : Prop := 0 <= b < 256.
Lemma byte_bit b i : byte b -> 8 <= i -> Z.testbit b i = false.
Proof.
  intros B I. destruct (Z.eq_dec b 0) as [->|N]; [apply Z.bits_0|]. apply Z.bits_above_log2; [apply B|]. assert (Z.log2 b < 8) by (apply Z.log2_lt_pow2; unfold byte in B; lia). lia.
Qed.
Lemma swap_le b0 b1 b2 b3 : byte b0 -> byte b1 -> byte b2 -> byte b3 ->
  swap (b0 + b1 * 256 + b2 * 65536 + b3 * 16777216) = b0 * 16777216 + b1 * 65536 + b2 * 256 + b3.
Proof.
  unfold byte. intros B0 B1 B2 B3. set (l := b0 + b1 * 256 + b2 * 65536 + b3 * 16777216).
  assert (L : w32 l) by (unfold w32, W32, l; lia).
  unfold swap. rewrite !rol_eq by (auto; lia). unfold rotl. change (32 - 24) with 8. change (32 - 8) with 24.
  assert (E1 : (l * 2 ^ 24) mod 2 ^ 32 + l / 2 ^ 8 = b0 * 2 ^ 24 + b3 * 2 ^ 16 + b2 * 2 ^ 8 + b1) by (unfold l; lia).
  assert (E2 : (l * 2 ^ 8) mod 2 ^ 32 + l / 2 ^ 24 = b2 * 2 ^ 24 + b1 * 2 ^ 16 + b0 * 2 ^ 8 + b3) by (unfold l; lia).
  rewrite E1, E2. clear E1 E2.
  (* 0xFF00FF00 = ones 8 * 2^24 + ones 8 * 2^8 *)
  replace 0xFF00FF00 with (Z.lor (Z.ones 8 * 2 ^ 24) (Z.ones 8 * 2 ^ 8)) by reflexivity.
  replace 0x00FF00FF with (Z.lor (Z.ones 8 * 2 ^ 16) (Z.ones 8 * 2 ^ 0)) by reflexivity.
  rewrite !Z.land_lor_distr_r, !land_high by lia.
  assert (Q1 : ((b0 * 2 ^ 24 + b3 * 2 ^ 16 + b2 * 2 ^ 8 + b1) / 2 ^ 24) mod 2 ^ 8 = b0) by lia.
  assert (Q2 : ((b0 * 2 ^ 24 + b3 * 2 ^ 16 + b2 * 2 ^ 8 + b1) / 2 ^ 8) mod 2 ^ 8 = b2) by lia.
  assert (Q3 : ((b2 * 2 ^ 24 + b1 * 2 ^ 16 + b0 * 2 ^ 8 + b3) / 2 ^ 16) mod 2 ^ 8 = b1) by lia.
  assert (Q4 : ((b2 * 2 ^ 24 + b1 * 2 ^ 16 + b0 * 2 ^ 8 + b3) / 2 ^ 0) mod 2 ^ 8 = b3) by lia.
  rewrite Q1, Q2, Q3, Q4. rewrite (lor_low b0 (b2 * 2 ^ 8) 24) by lia. rewrite (lor_low b1 (b3 * 2 ^ 0) 16) by lia.
  rewrite (Z.add_comm (b0 * 2 ^ 24)).
  assert (E : Z.lor (b2 * 2 ^ 8 + b0 * 2 ^ 24) (b1 * 2 ^ 16 + b3 * 2 ^ 0) = b0 * 2 ^ 24 + b1 * 2 ^ 16 + b2 * 2 ^ 8 + b3).
  { rewrite <- (lor_low b1 (b3 * 2 ^ 0) 16) by lia. rewrite Z.add_comm. rewrite <- (lor_low b0 (b2 * 2 ^ 8) 24) by lia.
    replace (Z.lor (Z.lor (b0 * 2 ^ 24) (b2 * 2 ^ 8)) (Z.lor (b1 * 2 ^ 16) (b3 * 2 ^ 0))) with (Z.lor (b0 * 2 ^ 24) (Z.lor (b1 * 2 ^ 16) (Z.lor (b2 * 2 ^ 8) (b3 * 2 ^ 0)))).
    - rewrite (lor_low b2 (b3 * 2 ^ 0) 8) by lia. rewrite (lor_low b1) by lia. rewrite (lor_low b0) by lia. lia.
    - rewrite <- !Z.lor_assoc. f_equal. rewrite !Z.lor_assoc. f_equal. apply Z.lor_comm. }
  rewrite E. lia.
Qed.

(** ---- words ---- *)
Lemma le_be_words : forall n l, length l = (4 * n)%nat -> Forall byte l ->
  length (le_words l) = n /\ length (be_words l) = n /\ Forall w32 (be_words l) /\ forall k, (k < n)%nat -> swap (nth k (le_words l) 0) = nth k (be_words l) 0.
Proof.
  induction n as [|n IH]; intros l L F.
  - destruct l; [|discriminate]. cbn. split; [reflexivity|]. split; [reflexivity|]. split; [constructor|]. lia.
  - destruct l as [|b0 [|b1 [|b2 [|b3 l]]]]; cbn [length] in L; try lia. inversion F as [|? ? F0 G0]; subst. inversion G0 as [|? ? F1 G1]; subst. inversion G1 as [|? ? F2 G2]; subst. inversion G2 as [|? ? F3 G3]; subst.
    destruct (IH l ltac:(lia) G3) as (A & B & C & D). cbn [le_words be_words length]. split; [lia|]. split; [lia|]. split.
    + constructor; [unfold w32, W32, byte in *; lia|exact C].
    + intros [|k] K; cbn [nth]; [now apply swap_le|apply D; lia].
Qed.

(** ---- schedule ---- *)
Lemma extend_spec : forall n W, (16 <= length W)%nat -> Forall w32 W ->
  length (extend n W) = (length W + n)%nat /\ Forall w32 (extend n W) /\ (forall k, (k < length W)%nat -> nth k (extend n W) 0 = nth k W 0) /\
  (forall t, (length W <= t < length W + n)%nat -> let V := extend n W in
    nth t V 0 = rotl 1 (Z.lxor (Z.lxor (Z.lxor (nth (t - 3) V 0) (nth (t - 8) V 0)) (nth (t - 14) V 0)) (nth (t - 16) V 0))).
Proof.
  induction n as [|n IH]; intros W L F; cbn [extend]; cbv zeta.
  - split; [lia|]. split; [exact F|]. split; [reflexivity|]. lia.
  - set (x := rotl 1 _). assert (X : w32 x).
    { assert (N : forall k, (k < length W)%nat -> w32 (nth k W 0)) by (intros k K; rewrite Forall_forall in F; apply F, nth_In; exact K).
      apply rotl_range; [|lia]. repeat apply lxor_w32; apply N; lia. }
    destruct (IH (W ++ [x])) as (A & B & C & D); [rewrite app_length; cbn; lia|apply Forall_app; split; [exact F|repeat constructor; apply X]|].
    rewrite app_length in *. cbn [length] in *. split; [lia|]. split; [exact B|]. split.
    + intros k K. rewrite C by lia. now rewrite app_nth1 by lia.
    + intros t T. destruct (Nat.eq_dec t (length W)) as [->|N]; [|apply D; lia].
      rewrite C by lia. rewrite app_nth2, Nat.sub_diag by lia. cbn [nth]. rewrite !C by lia. rewrite !app_nth1 by lia. reflexivity.
Qed.

Lemma schedule_spec M : length M = 16%nat -> Forall w32 M ->
  length (schedule M) = 80%nat /\ Forall w32 (schedule M) /\ (forall k, (k < 16)%nat -> nth k (schedule M) 0 = nth k M 0) /\
  (forall t, (16 <= t < 80)%nat -> 
    nth t (schedule M) 0 = rotl 1 (Z.lxor (Z.lxor (Z.lxor (nth (t - 3) (schedule M) 0) (nth (t - 8) (schedule M) 0)) (nth (t - 14) (schedule M) 0)) (nth (t - 16) (schedule M) 0))).
Proof.
  intros L F. pose proof (extend_spec 64 M ltac:(lia) F) as (A & B & C & D). rewrite L in *. unfold schedule.
  split; [exact A|]. split; [exact B|]. split; [exact C|]. exact D.
Qed.
(** ---- the table of rounds ---- *)
Definition kindof (t : nat) : kind := if (t <? 16)%nat then R0 else if (t <? 20)%nat then R1 else if (t <? 40)%nat then R2 else if (t <? 60)%nat then R3 else R4.
Definition rot (p : var * var * var * var * var) := let '(v, w, x, y, z) := p in (z, v, w, x, y).
Fixpoint vars (t : nat) : var * var * var * var * var := match t with O => (Va, Vb, Vc, Vd, Ve) | S t => rot (vars t) end.
Definition mkround (t : nat) : round := let '(v, w, x, y, z) := vars t in rd (kindof t) v w x y z t.
Lemma rounds_eq : rounds = map mkround (seq 0 80).
Proof. reflexivity. Qed.
Lemma vars_cases t : vars t = (Va, Vb, Vc, Vd, Ve) \/ vars t = (Ve, Va, Vb, Vc, Vd) \/ vars t = (Vd, Ve, Va, Vb, Vc) \/ vars t = (Vc, Vd, Ve, Va, Vb) \/ vars t = (Vb, Vc, Vd, Ve, Va).
Proof. induction t as [|t IH]; [now left|]. cbn [vars]. destruct IH as [->|[->|[->|[->| ->]]]]; cbn [rot]; tauto. Qed.
Definition view (t : nat) (g : regs) : Z * Z * Z * Z * Z := let '(v, w, x, y, z) := vars t in (get g v, get g w, get g x, get g y, get g z).
Definition regs_ok (g : regs) : Prop := w32 (ra g) /\ w32 (rb g) /\ w32 (rc g) /\ w32 (rd_ g) /\ w32 (re g).

Lemma mix_eq t b c d : mix (kindof t) b c d = ft t b c d.
Proof.
  unfold kindof, ft. destruct (Nat.ltb_spec t 16); [replace (t <? 20)%nat with true by lia; apply ch_eq|].
  destruct (Nat.ltb_spec t 20); [apply ch_eq|]. destruct (Nat.ltb_spec t 40); [reflexivity|]. destruct (Nat.ltb_spec t 60); [apply maj_eq|reflexivity].
Qed.
Lemma konst_eq t : konst (kindof t) = Kt t.
Proof.
  unfold kindof, Kt. destruct (Nat.ltb_spec t 16); [replace (t <? 20)%nat with true by lia; reflexivity|].
  destruct (Nat.ltb_spec t 20); [reflexivity|]. destruct (Nat.ltb_spec t 40); [reflexivity|]. destruct (Nat.ltb_spec t 60); reflexivity.
Qed.
Lemma sum_eq e f m k r : add32 e (add32 (add32 (add32 f m) k) r) = (r + f + e + k + m) mod 2 ^ 32.
Proof.
  unfold add32. rewrite <- W32_eq. rewrite Zplus_mod_idemp_r. rewrite (Zplus_mod_idemp_l (f + m) k).
  replace (e + ((f + m + k) mod W32 + r)) with ((f + m + k) mod W32 + (e + r)) by ring. rewrite Zplus_mod_idemp_l. f_equal. ring.
Qed.
Lemma rounds_step t g l m l' :
  regs_ok g -> (match kindof t with R0 => blk0 l t | _ => blk l t end) = (m, l') ->
  exists g', do_round (g, l) (mkround t) = (g', l') /\ regs_ok g' /\ view (S t) g' = let '(a, b, c, d, e) := view t g in ((rotl 5 a + ft t b c d + e + Kt t + m) mod 2 ^ 32, a, rotl 30 b, c, d).
Proof.
  intros (Ga & Gb & Gc & Gd & Ge) E. unfold do_round, mkround, view. cbn [vars].
  destruct (vars_cases t) as [->|[->|[->|[->| ->]]]]; cbn [rk rv rw rx ry rz ri rot]; rewrite E; eexists; (split; [reflexivity|]);
    rewrite <- mix_eq, <- konst_eq, <- sum_eq; cbn [get set ra rb rc rd_ re]; rewrite !rol_eq by (auto; lia);
    (split; [|reflexivity]); unfold regs_ok; cbn [ra rb rc rd_ re]; unfold add32; repeat (split; auto using mod_w32); try (apply rotl_range; [assumption|lia]); try apply mod_w32; apply rotl_range; auto; lia.
Qed.

(** the sixteen-word window onto the schedule *)
Definition window (W le : list Z) (t : nat) (l : list Z) : Prop :=
  length l = 16%nat /\ (forall s, (s < t)%nat -> (t <= s + 16)%nat -> nth (s mod 16) l 0 = nth s W 0) /\ (forall k, (t <= k < 16)%nat -> nth k l 0 = nth k le 0).
Lemma nth_upd (l : list Z) i v j : (i < length l)%nat -> nth j (upd l i v) 0 = if Nat.eqb j i then v else nth j l 0.
Proof.
  intros I. destruct (Nat.eqb_spec j i) as [->|N].
  - apply nth_error_nth. rewrite upd_nth_error, Nat.eqb_refl. now replace (i <? length l)%nat with true by lia.
  - apply Nat.eqb_neq in N. destruct (nth_error l j) as [y|] eqn:Y.
    + rewrite (nth_error_nth l j 0 Y). apply nth_error_nth. now rewrite upd_nth_error, N.
    + assert (length l <= j)%nat by (now apply nth_error_None). rewrite !nth_overflow; [reflexivity|lia|rewrite upd_length; lia].
Qed.

Section Block.
Variable buf : list Z.
Hypothesis BL : length buf = 64%nat.
Hypothesis BB : Forall byte buf.
Let M := be_words buf.
Let W := schedule M.
Let Lw := le_words buf.
Lemma M_ok : length M = 16%nat /\ length Lw = 16%nat /\ Forall w32 M /\ forall k, (k < 16)%nat -> swap (nth k Lw 0) = nth k M 0.
Proof. destruct (le_be_words 16 buf ltac:(rewrite BL; reflexivity) BB) as (A & B & C & D). auto. Qed.
Lemma W_ok : length W = 80%nat /\ Forall w32 W /\ (forall k, (k < 16)%nat -> nth k W 0 = swap (nth k Lw 0)) /\
  (forall t, (16 <= t < 80)%nat -> nth t W 0 = rotl 1 (Z.lxor (Z.lxor (Z.lxor (nth (t - 3) W 0) (nth (t - 8) W 0)) (nth (t - 14) W 0)) (nth (t - 16) W 0))).
Proof.
  destruct M_ok as (A & B & C & D). destruct (schedule_spec M A C) as (E1 & E2 & E3 & E4).
  split; [exact E1|]. split; [exact E2|]. split; [intros k K; rewrite D by exact K; apply E3; exact K|]. exact E4.
Qed.
Lemma window_step t l : (t < 80)%nat -> window W Lw t l ->
  exists l', (match kindof t with R0 => blk0 l t | _ => blk l t end) = (nth t W 0, l') /\ window W Lw (S t) l'.
Proof.
  intros T (L & H1 & H2). destruct W_ok as (A & B & C & D). exists (upd l (t mod 16) (nth t W 0)). split.
  - destruct (Nat.ltb_spec t 16) as [S|S].
    + unfold kindof. replace (t <? 16)%nat with true by lia. unfold blk0. rewrite H2 by lia. rewrite <- C by exact S. rewrite Nat.mod_small by exact S. reflexivity.
    + assert (E : blk l t = (nth t W 0, upd l (t mod 16) (nth t W 0))).
      { unfold blk. cbv zeta. assert (F : forall d, (1 <= d <= 16)%nat -> (d <= t)%nat -> nth ((t + (16 - d)) mod 16) l 0 = nth (t - d) W 0).
        { intros d D1 D2. rewrite <- H1 by lia. f_equal. replace (t + (16 - d))%nat with (t - d + 1 * 16)%nat by lia. now rewrite Nat.mod_add by lia. }
        change (t + 13)%nat with (t + (16 - 3))%nat. change (t + 8)%nat with (t + (16 - 8))%nat. change (t + 2)%nat with (t + (16 - 14))%nat.
        rewrite !F by lia. assert (F0 : nth (t mod 16) l 0 = nth (t - 16) W 0). { rewrite <- (F 16%nat) by lia. now rewrite Nat.add_0_r. } rewrite F0.
        assert (N : forall k, (k < 80)%nat -> w32 (nth k W 0)) by (intros k K; rewrite Forall_forall in B; apply B, nth_In; lia).
        rewrite rol_eq; [|repeat apply lxor_w32; apply N; lia|lia]. rewrite <- D by lia. reflexivity. }
      rewrite <- E. unfold kindof. replace (t <? 16)%nat with false by lia. now destruct (t <? 20)%nat, (t <? 40)%nat, (t <? 60)%nat.
  - pose proof (Nat.mod_upper_bound t 16 ltac:(lia)) as U. split; [now rewrite upd_length|]. split.
    + intros s S1 S2. rewrite nth_upd by lia. destruct (Nat.eqb_spec (s mod 16) (t mod 16)) as [E|N].
      * assert (s = t). { pose proof (Nat.div_mod s 16 ltac:(lia)). pose proof (Nat.div_mod t 16 ltac:(lia)). lia. } now subst s.
      * destruct (Nat.eq_dec s t) as [->|]; [congruence|]. apply H1; lia.
    + intros k K. rewrite nth_upd by lia. replace (k =? t mod 16)%nat with false; [apply H2; lia|]. symmetry. apply Nat.eqb_neq. rewrite Nat.mod_small by lia. lia.
Qed.
Lemma rounds_ok st : regs_ok st -> forall n, (n <= 80)%nat -> exists g l, fold_left do_round (map mkround (seq 0 n)) (st, Lw) = (g, l) /\
  regs_ok g /\ window W Lw n l /\ view n g = fold_left (step W) (seq 0 n) (view 0 st).
Proof.
  intros G. induction n as [|n IH]; intros N.
  - exists st, Lw. split; [reflexivity|]. split; [exact G|]. split; [|reflexivity]. split; [apply M_ok|]. split; [intros s S; lia|reflexivity].
  - destruct (IH ltac:(lia)) as (g & l & E & G1 & Wn & V). rewrite seq_S, map_app, !fold_left_app, E, <- V. cbn [map fold_left Nat.add].
    destruct (window_step n l ltac:(lia) Wn) as (l' & E2 & Wn2). destruct (rounds_step n g l _ l' G1 E2) as (g' & E3 & G3 & V3).
    exists g', l'. split; [exact E3|]. split; [exact G3|]. split; [exact Wn2|]. rewrite V3. unfold step. now destruct (view n g) as [[[[a b] c] d] e].
Qed.
Definition abs (g : regs) : Z * Z * Z * Z * Z := (ra g, rb g, rc g, rd_ g, re g).
Definition stale : list Z := concat (map word_le (skipn 64 W)).
Lemma transform_block st : regs_ok st -> exists st', transform st buf = (st', stale) /\ regs_ok st' /\ abs st' = compress (abs st) M.
Proof.
  intros G. unfold transform. rewrite rounds_eq. fold Lw. destruct (rounds_ok st G 80 ltac:(lia)) as (g & l & E & G1 & (L & W1 & W2) & V). rewrite E. eexists. split.
  - f_equal. unfold stale. do 2 f_equal. destruct W_ok as (A & _). apply (nth_ext _ _ 0 0); [rewrite L, skipn_length, A; reflexivity|]. intros k K. rewrite L in K.
    rewrite <- (firstn_skipn 64 W) in W1. specialize (W1 (64 + k)%nat ltac:(lia) ltac:(lia)). rewrite app_nth2 in W1 by (rewrite firstn_length, A; lia). rewrite firstn_length, A in W1.
    replace (64 + k - Nat.min 64 80)%nat with k in W1 by (cbn; lia). rewrite <- W1. f_equal. replace (64 + k)%nat with (k + 4 * 16)%nat by lia. rewrite Nat.mod_add by lia. now rewrite Nat.mod_small.
  - split; [unfold regs_ok; cbn [ra rb rc rd_ re]; repeat split; apply mod_w32|]. unfold compress, abs. cbn [ra rb rc rd_ re]. fold W.
    assert (E0 : view 0 st = (ra st, rb st, rc st, rd_ st, re st)) by reflexivity. rewrite E0 in V. rewrite <- V.
    assert (E80 : view 80 g = (ra g, rb g, rc g, rd_ g, re g)) by reflexivity. rewrite E80. unfold add32. rewrite <- W32_eq.
    now rewrite (Z.add_comm (ra st)), (Z.add_comm (rb st)), (Z.add_comm (rc st)), (Z.add_comm (rd_ st)), (Z.add_comm (re st)).
Qed.
End Block.
