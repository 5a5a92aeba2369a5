(** Seeding MT19937 from an array (init_by_array of the reference implementation), as a sequence of words without a state array. *)
From Verif Require Import Prelude Bits RandModel RandProofs.
Open Scope Z_scope.

(** The words 0 .. 623 come from seeding with 19650218 ([g]); then [v t] is the t-th word computed.  The words computed replace the words 1 .. 623 in turn,
    again and again: step t replaces the word computed 623 steps earlier (or word t + 1 of [g] in the first round), and it depends on that word and on the
    word computed by the step before (word 0 of [g] for step 0).  There are max 624 n steps that add the seed words (in turn) and their index, then 623 steps that
    subtract the position.  The result is 2^31 followed by the last 623 words computed, each at its position. *)
Definition old (g v : nat -> Z) (t : nat) : Z := if (t <? 623)%nat then g (t + 1)%nat else v (t - 623)%nat.
Definition before (g v : nat -> Z) (t : nat) : Z := if (t =? 0)%nat then g 0%nat else v (t - 1)%nat.
Definition mix (p c : Z) : Z := Z.lxor p (p / 2 ^ 30) * c.
Definition array_seeded (seed : list Z) (w : nat -> Z) : Prop :=
  exists g v, let n := length seed in let K := Nat.max 624 n in
  mt_seeded 19650218 g /\
  (forall t, (t < K)%nat -> v t = (Z.lxor (old g v t) (mix (before g v t) 1664525) + nth (t mod n) seed 0 + Z.of_nat (t mod n)) mod 2 ^ 32) /\
  (forall t, (K <= t < K + 623)%nat -> v t = (Z.lxor (old g v t) (mix (before g v t) 1566083941) - Z.of_nat (1 + t mod 623)) mod 2 ^ 32) /\
  w 0%nat = 2 ^ 31 /\
  (forall t, (K <= t < K + 623)%nat -> w (1 + t mod 623)%nat = v t).

(** One step, for any law. *)
Section Step.
  Variable g : nat -> Z.
  Definition at_ (vs : list Z) (k : nat) : Z := nth k vs 0.
  Definition shows (l : list Z) (vs : list Z) : Prop := let t := length vs in
    length l = 624%nat /\ nth_error l (t mod 623) = Some (before g (at_ vs) t) /\
    forall d, (d < 623)%nat -> nth_error l (1 + (t + d) mod 623) = Some (old g (at_ vs) (t + d)).

  Lemma at_snoc vs v k : (k < length vs)%nat -> at_ (vs ++ [v]) k = at_ vs k.
  Proof. intros H. unfold at_. now rewrite app_nth1. Qed.
  Lemma at_last vs v : at_ (vs ++ [v]) (length vs) = v.
  Proof. unfold at_. rewrite app_nth2, Nat.sub_diag by lia. reflexivity. Qed.
  Lemma old_snoc vs v k : (k < length vs + 623)%nat -> old g (at_ (vs ++ [v])) k = old g (at_ vs) k.
  Proof. intros H. unfold old. destruct (Nat.ltb_spec k 623); [reflexivity|]. apply at_snoc. lia. Qed.
  Lemma before_snoc vs v k : (k <= length vs)%nat -> before g (at_ (vs ++ [v])) k = before g (at_ vs) k.
  Proof. intros H. unfold before. destruct (Nat.eqb_spec k 0); [reflexivity|]. apply at_snoc. lia. Qed.
  Lemma step_shows l vs v : shows l vs ->
    let i := (1 + length vs mod 623)%nat in
    exists l' i', (l <- wr l i v ;; if Nat.leb RECURRENCE (S i) then z <- rd l (RECURRENCE - 1) ;; l <- wr l 0 z ;; Ok (l, 1%nat) else Ok (l, S i)) = Ok (l', i') /\
      i' = (1 + S (length vs) mod 623)%nat /\ shows l' (vs ++ [v]).
  Proof.
    intros (L & P & O) i. set (t := length vs) in *.
    assert (Ib : (t mod 623 < 623)%nat) by (apply Nat.mod_upper_bound; lia).
    assert (I : (1 <= i <= 623)%nat) by (unfold i; lia).
    unfold wr at 1. replace (i <? length l)%nat with true by lia. cbn [obind].
    set (l1 := upd l i v).
    assert (L1 : length l1 = 624%nat) by (unfold l1; rewrite upd_length; exact L).
    assert (N1 : forall q, nth_error l1 q = if (q =? i)%nat then Some v else nth_error l q).
    { intros q. unfold l1. rewrite upd_nth_error. destruct (Nat.eqb_spec i q) as [->|N]; [rewrite Nat.eqb_refl; replace (q <? length l)%nat with true by lia; reflexivity|].
      replace (q =? i)%nat with false by lia. reflexivity. }
    assert (LS : length (vs ++ [v]) = S t) by (rewrite app_length; cbn [length]; unfold t; lia).
    assert (O1 : forall d, (d < 623)%nat -> nth_error l1 (1 + (S t + d) mod 623) = Some (old g (at_ (vs ++ [v])) (S t + d))).
    { intros d D. rewrite N1. destruct (Nat.eq_dec d 622) as [->|ND].
      - replace (S t + 622)%nat with (t + 1 * 623)%nat by lia. rewrite Nat.mod_add by lia. fold i. rewrite Nat.eqb_refl.
        unfold old. replace (t + 1 * 623 <? 623)%nat with false by lia. replace (t + 1 * 623 - 623)%nat with (length vs) by (fold t; lia). now rewrite at_last.
      - replace (S t + d)%nat with (t + (d + 1))%nat by lia. rewrite old_snoc by (fold t; lia).
        assert (NE : (1 + (t + (d + 1)) mod 623 <> i)%nat).
        { unfold i. intros X. pose proof (Nat.div_mod (t + (d + 1)) 623 ltac:(lia)). pose proof (Nat.div_mod t 623 ltac:(lia)). nia. }
        replace (1 + (t + (d + 1)) mod 623 =? i)%nat with false by lia. apply O. lia. }
    change RECURRENCE with 624%nat. change (624 - 1)%nat with 623%nat.
    pose proof (Nat.div_mod t 623 ltac:(lia)) as DT.
    destruct (Nat.leb_spec 624 (S i)) as [W|W].
    - assert (i = 623)%nat by lia. assert (M0 : (S t mod 623 = 0)%nat).
      { replace (S t) with (0 + (t / 623 + 1) * 623)%nat by (unfold i in *; lia). rewrite Nat.mod_add by lia. reflexivity. }
      unfold rd. rewrite N1. replace (623 =? i)%nat with true by lia. cbn [obind]. unfold wr. replace (0 <? length l1)%nat with true by lia. cbn [obind].
      do 2 eexists. split; [reflexivity|]. rewrite M0. split; [reflexivity|].
      assert (N2 : forall q, nth_error (upd l1 0 v) q = if (q =? 0)%nat then Some v else nth_error l1 q).
      { intros q. rewrite upd_nth_error. destruct q; [replace (0 <? length l1)%nat with true by lia; reflexivity|reflexivity]. }
      unfold shows. rewrite LS. split; [rewrite upd_length; exact L1|]. split.
      + rewrite M0, N2. cbn [Nat.eqb]. unfold before. cbn [Nat.eqb]. replace (S t - 1)%nat with (length vs) by (fold t; lia). now rewrite at_last.
      + intros d D. rewrite N2. replace (1 + (S t + d) mod 623 =? 0)%nat with false by lia. apply O1, D.
    - assert (M1 : (S t mod 623 = i)%nat).
      { replace (S t) with (i + (t / 623) * 623)%nat by (unfold i in *; lia). rewrite Nat.mod_add by lia. apply Nat.mod_small. lia. }
      do 2 eexists. split; [reflexivity|]. rewrite M1. split; [lia|]. unfold shows. rewrite LS. split; [exact L1|]. split; [|exact O1].
      rewrite M1, N1, Nat.eqb_refl. unfold before. cbn [Nat.eqb]. replace (S t - 1)%nat with (length vs) by (fold t; lia). now rewrite at_last.
  Qed.
  Variable F : nat -> Z -> Z -> Z.
  Definition lawful (vs : list Z) : Prop := forall k, (k < length vs)%nat -> at_ vs k = F k (old g (at_ vs) k) (before g (at_ vs) k).
  Lemma lawful_snoc vs v : lawful vs -> v = F (length vs) (old g (at_ vs) (length vs)) (before g (at_ vs) (length vs)) -> lawful (vs ++ [v]).
  Proof.
    intros L V k K. rewrite app_length in K. cbn [length] in K. rewrite old_snoc, before_snoc by lia.
    destruct (Nat.eq_dec k (length vs)) as [->|N]; [rewrite at_last; exact V|]. rewrite at_snoc by lia. apply L. lia.
  Qed.
End Step.

Definition F1 (seed : list Z) (t : nat) (o b : Z) : Z := (Z.lxor o (mix b 1664525) + nth (t mod length seed) seed 0 + Z.of_nat (t mod length seed)) mod 2 ^ 32.
Definition F2 (t : nat) (o b : Z) : Z := (Z.lxor o (mix b 1566083941) - Z.of_nat (1 + t mod 623)) mod 2 ^ 32.
Definition law (seed : list Z) (t : nat) : Z -> Z -> Z := if (t <? Nat.max 624 (length seed))%nat then F1 seed t else F2 t.

Lemma rd_shows g l vs : shows g l vs -> rd l (1 + length vs mod 623) = Ok (old g (at_ vs) (length vs)) /\ rd l (1 + length vs mod 623 - 1) = Ok (before g (at_ vs) (length vs)).
Proof.
  intros (_ & P & O). unfold rd. specialize (O 0%nat ltac:(lia)). rewrite Nat.add_0_r in O. rewrite O. replace (1 + length vs mod 623 - 1)%nat with (length vs mod 623)%nat by lia. rewrite P. auto.
Qed.

Lemma init1_law g seed : seed <> [] -> forall k l vs, lawful g (law seed) vs -> shows g l vs -> (length vs + k <= Nat.max 624 (length seed))%nat ->
  exists l' ws, init1 k l seed (1 + length vs mod 623) (length vs mod length seed) = Ok (l', (1 + length ws mod 623)%nat) /\
    length ws = (length vs + k)%nat /\ lawful g (law seed) ws /\ shows g l' ws.
Proof.
  intros NE. assert (SL : (0 < length seed)%nat) by (destruct seed; [congruence|cbn [length]; lia]).
  induction k as [|k IH]; intros l vs LV SV K; cbn [init1].
  - exists l, vs. split; [reflexivity|]. split; [lia|auto].
  - set (t := length vs) in *. destruct (rd_shows g l vs SV) as [E1 E2]. fold t in E1, E2. rewrite E1. cbn [obind]. rewrite E2. cbn [obind].
    assert (JB : (t mod length seed < length seed)%nat) by (apply Nat.mod_upper_bound; lia).
    unfold rd at 1. rewrite (nth_error_nth' seed 0 JB). cbn [obind]. rewrite Z.shiftr_div_pow2 by lia. cbv zeta.
    change (Z.lxor (before g (at_ vs) t) (before g (at_ vs) t / 2 ^ 30) * 1664525) with (mix (before g (at_ vs) t) 1664525).
    set (v := (Z.lxor (old g (at_ vs) t) (mix (before g (at_ vs) t) 1664525) + nth (t mod length seed) seed 0 + Z.of_nat (t mod length seed)) mod M32).
    assert (V : v = law seed t (old g (at_ vs) t) (before g (at_ vs) t)) by (unfold law; replace (t <? Nat.max 624 (length seed))%nat with true by lia; reflexivity).
    destruct (step_shows g l vs v SV) as (l' & i' & ES & -> & SV'). fold t in ES.
    destruct (wr l (1 + t mod 623) v) as [l1| | |]; cbn [obind] in ES |- *; try discriminate. rewrite ES. cbn [obind].
    assert (JN : (if (length seed <=? S (t mod length seed))%nat then 0%nat else S (t mod length seed)) = (S t mod length seed)%nat).
    { pose proof (Nat.div_mod t (length seed) ltac:(lia)) as DT. destruct (Nat.leb_spec (length seed) (S (t mod length seed))) as [G|G].
      - replace (S t) with (0 + (t / length seed + 1) * length seed)%nat by nia. rewrite Nat.mod_add by lia. symmetry. apply Nat.mod_small. lia.
      - replace (S t) with (S (t mod length seed) + (t / length seed) * length seed)%nat by nia. rewrite Nat.mod_add by lia. symmetry. apply Nat.mod_small. lia. }
    rewrite JN. assert (LS : length (vs ++ [v]) = S t) by (rewrite app_length; cbn [length]; unfold t; lia).
    rewrite <- LS. destruct (IH l' (vs ++ [v]) (lawful_snoc g (law seed) vs v LV V) SV') as (l2 & ws & E & Lw & R); [rewrite LS; lia|].
    exists l2, ws. split; [exact E|]. split; [rewrite Lw, LS; lia|exact R].
Qed.
Lemma init2_law g seed : forall k l vs, lawful g (law seed) vs -> shows g l vs -> (Nat.max 624 (length seed) <= length vs)%nat ->
  exists l' ws, init2 k l (1 + length vs mod 623) = Ok l' /\ length ws = (length vs + k)%nat /\ lawful g (law seed) ws /\ shows g l' ws.
Proof.
  induction k as [|k IH]; intros l vs LV SV K; cbn [init2].
  - exists l, vs. split; [reflexivity|]. split; [lia|auto].
  - set (t := length vs) in *. destruct (rd_shows g l vs SV) as [E1 E2]. fold t in E1, E2. rewrite E1. cbn [obind]. rewrite E2. cbn [obind].
    rewrite Z.shiftr_div_pow2 by lia. cbv zeta.
    change (Z.lxor (before g (at_ vs) t) (before g (at_ vs) t / 2 ^ 30) * 1566083941) with (mix (before g (at_ vs) t) 1566083941).
    set (v := (Z.lxor (old g (at_ vs) t) (mix (before g (at_ vs) t) 1566083941) - Z.of_nat (1 + t mod 623)) mod M32).
    assert (V : v = law seed t (old g (at_ vs) t) (before g (at_ vs) t)) by (unfold law; replace (t <? Nat.max 624 (length seed))%nat with false by lia; reflexivity).
    destruct (step_shows g l vs v SV) as (l' & i' & ES & -> & SV'). fold t in ES.
    destruct (wr l (1 + t mod 623) v) as [l1| | |]; cbn [obind] in ES |- *; try discriminate. rewrite ES. cbn [obind].
    assert (LS : length (vs ++ [v]) = S t) by (rewrite app_length; cbn [length]; unfold t; lia).
    rewrite <- LS. destruct (IH l' (vs ++ [v]) (lawful_snoc g (law seed) vs v LV V) SV') as (l2 & ws & E & Lw & R); [rewrite LS; lia|].
    exists l2, ws. split; [exact E|]. split; [rewrite Lw, LS; lia|exact R].
Qed.

Lemma initstate_reference s seed : length (mt s) = 624%nat -> seed <> [] ->
  exists s', initstate s seed = Ok s' /\ array_seeded seed (fun i => nth i (mt s') 0).
Proof.
  intros L NE. destruct (mt19937_ok 19650218) as [M _]. set (g := mt19937 19650218) in *.
  destruct (srandom_ok g 19650218 s ltac:(unfold w32; lia) M L) as (s1 & E1 & [L1 ST] & _).
  assert (S0 : shows g (mt s1) []).
  { split; [exact L1|]. split; [cbn [length]; rewrite Nat.mod_small by lia; rewrite ST by lia; reflexivity|]. intros d D. cbn [length Nat.add]. rewrite Nat.mod_small by lia. rewrite ST by lia.
    unfold old. replace (d <? 623)%nat with true by lia. now replace (d + 1)%nat with (S d) by lia. }
  unfold initstate. rewrite E1. cbn [obind]. change RECURRENCE with 624%nat. set (K := Nat.max 624 (length seed)).
  assert (LW0 : lawful g (law seed) []) by (intros k Hk; cbn [length] in Hk; lia).
  destruct (init1_law g seed NE K (mt s1) [] LW0 S0 ltac:(cbn [length]; fold K; lia)) as (l2 & w2 & E2 & W2 & LW2 & S2).
  change (length (@nil Z)) with 0%nat in E2. rewrite (Nat.mod_small 0 623) in E2 by lia. rewrite (Nat.mod_small 0 (length seed)) in E2 by (destruct seed; [congruence|cbn [length]; lia]).
  change (1 + 0)%nat with 1%nat in E2. rewrite E2. cbn [obind]. cbn [length] in W2.
  destruct (init2_law g seed (624 - 1) l2 w2 LW2 S2 ltac:(fold K; lia)) as (l3 & w3 & E3 & W3 & LW3 & (L3 & _ & O3)). rewrite E3. cbn [obind]. change (624 - 1)%nat with 623%nat in W3.
  assert (WL : length w3 = (K + 623)%nat) by lia.
  unfold wr. replace (0 <? length l3)%nat with true by lia. cbn [obind]. eexists. split; [reflexivity|]. cbn [mt].
  assert (UP : forall i, (0 < i)%nat -> nth_error (upd l3 0 2147483648) i = nth_error l3 i) by (intros [|i] Hi; [lia|now rewrite upd_nth_error]).
  exists g, (at_ w3). cbv zeta. fold K. split; [exact M|]. split; [|split; [|split]].
  - intros t T. rewrite (LW3 t) by lia. unfold law. replace (t <? Nat.max 624 (length seed))%nat with true by (fold K; lia). reflexivity.
  - intros t T. rewrite (LW3 t) by lia. unfold law. replace (t <? Nat.max 624 (length seed))%nat with false by (fold K; lia). reflexivity.
  - apply nth_error_nth. rewrite upd_nth_error. cbn [Nat.eqb]. replace (0 <? length l3)%nat with true by lia. reflexivity.
  - intros t T. apply nth_error_nth. rewrite UP by lia. specialize (O3 (t - K)%nat ltac:(lia)). rewrite WL in O3.
    replace (K + 623 + (t - K))%nat with (t + 1 * 623)%nat in O3 by lia. rewrite Nat.mod_add in O3 by lia. rewrite O3. f_equal.
    unfold old. replace (t + 1 * 623 <? 623)%nat with false by lia. f_equal. lia.
Qed.

Lemma last_round K i : (i < 623)%nat -> exists t, (K <= t < K + 623)%nat /\ (1 + t mod 623 = S i)%nat.
Proof.
  intros I. pose proof (Nat.div_mod K 623 ltac:(lia)) as D. pose proof (Nat.mod_upper_bound K 623 ltac:(lia)).
  destruct (Nat.le_gt_cases (K mod 623) i).
  - exists (i + K / 623 * 623)%nat. split; [lia|]. rewrite Nat.mod_add by lia. rewrite Nat.mod_small by lia. lia.
  - exists (i + (K / 623 + 1) * 623)%nat. split; [lia|]. rewrite Nat.mod_add by lia. rewrite Nat.mod_small by lia. lia.
Qed.
(** the description determines the 624 words *)
Lemma array_seeded_unique seed w w' : array_seeded seed w -> array_seeded seed w' -> forall i, (i < 624)%nat -> w i = w' i.
Proof.
  intros (g & v & G & A & B & W0 & W) (g' & v' & G' & A' & B' & W0' & W'). cbv zeta in *. set (K := Nat.max 624 (length seed)) in *.
  assert (W00 : w 0%nat = w' 0%nat) by congruence. clear W0 W0'. clearbody K.
  assert (GG : forall i, (i < 624)%nat -> g i = g' i).
  { clear - G G'. destruct G as [Ga Gb], G' as [Ga' Gb']. unfold mt_seeded in *. induction i as [|i IH]; intros I; [congruence|]. rewrite Gb, Gb' by lia. rewrite IH by lia. reflexivity. }
  assert (VV : forall t, (t < K + 623)%nat -> v t = v' t).
  { intros t. induction t as [t IH] using (well_founded_induction lt_wf). intros T.
    assert (O : old g v t = old g' v' t) by (unfold old; destruct (Nat.ltb_spec t 623); [apply GG; clear A A' B B' W W'; lia|apply IH; clear A A' B B' W W'; lia]).
    assert (P : before g v t = before g' v' t) by (unfold before; destruct (Nat.eqb_spec t 0); [apply GG; clear A A' B B' W W'; lia|apply IH; clear A A' B B' W W'; lia]).
    destruct (Nat.lt_ge_cases t K).
    - rewrite A, A' by assumption. now rewrite O, P.
    - rewrite B, B' by (split; assumption). now rewrite O, P. }
  intros [|i] I; [exact W00|].
  (* the step that wrote position i + 1 in the last round *)
  destruct (last_round K i ltac:(clear - I; lia)) as (t & T & <-). rewrite W, W' by exact T. now apply VV.
Qed.
