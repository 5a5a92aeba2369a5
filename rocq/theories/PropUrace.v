(** C73: zt_uuid4 called in several threads at the same time. *)
From Verif Require Import Prelude RandModel RandProofs UuidModel UuidProofs UuidGen UraceModel.
Local Open Scope Z_scope.

(** whatever the schedule, however many threads, a call that returns has stored 16 bytes with version 4 and variant 10 *)
Theorem C73_bits : forall l w w' us, run w l = Ok (w', us) -> Forall (fun x => length (snd x) = 16%nat /\ bytes (snd x) /\ nth 6 (snd x) 0 / 16 = 4 /\ nth 8 (snd x) 0 / 64 = 2) us.
Proof.
  induction l as [|[t now|t] l IH]; intros w w' us E; cbn [run] in E.
  - assert (us = []) as -> by congruence. constructor.
  - apply obind_ok in E. destruct E as ((w1 & o) & S1 & E). apply obind_ok in E. destruct E as ((w2 & us2) & R & E). assert (U : us = match o with Some u => (t, u) :: us2 | None => us2 end) by congruence. specialize (IH _ _ _ R).
    destruct o as [u|]; rewrite U; [|exact IH]. constructor; [|exact IH]. cbn [snd]. clear - S1. unfold step in S1.
    destruct (pcs w t) as [| | | |acc|p acc|p acc].
    + destruct (slots w t); discriminate S1.
    + discriminate S1.
    + apply obind_ok in S1. destruct S1 as (p & _ & S1). apply obind_ok in S1. destruct S1 as (s & _ & S1). apply obind_ok in S1. destruct S1 as (s1 & _ & S1). discriminate S1.
    + discriminate S1.
    + apply obind_ok in S1. destruct S1 as (p & _ & S1). discriminate S1.
    + apply obind_ok in S1. destruct S1 as (s & _ & S1). apply obind_ok in S1. destruct S1 as (s1 & _ & S1). apply obind_ok in S1. destruct S1 as (s2 & _ & S1). discriminate S1.
    + apply obind_ok in S1. destruct S1 as (s & _ & S1). apply obind_ok in S1. destruct S1 as (y & _ & S1). cbv zeta in S1. destruct (acc ++ [temper y]) as [|v1 [|v2 [|v3 [|v4 [|]]]]]; try discriminate S1.
      assert (EU : u = stamp 4 (le4 v1 ++ le4 v2 ++ le4 v3 ++ le4 v4)) by congruence. rewrite EU.
      assert (B : bytes (le4 v1 ++ le4 v2 ++ le4 v3 ++ le4 v4)) by (unfold bytes; rewrite !Forall_app; repeat split; apply le4_ok).
      destruct (stamp_ok 4 (le4 v1 ++ le4 v2 ++ le4 v3 ++ le4 v4) eq_refl B ltac:(lia)) as ((_ & _ & V & _ & W & _) & B' & L). auto.
  - destruct (pcs w t); try (exact (IH _ _ _ E)).
Qed.

(** calls that do not overlap: the model of C33 *)
Definition rel (w : sys) (v : world) : Prop :=
  flag w = rand_initialized v /\ (forall t, slots w t = match tls v t with Some s => Live s | None => Empty end) /\ forall t, pcs w t = Idle.
Lemma set_same {A} (f : nat -> A) t x : set f t x t = x.
Proof. unfold set. now rewrite Nat.eqb_refl. Qed.
Lemma set_other {A} (f : nat -> A) t u x : u <> t -> set f t x u = f u.
Proof. intros N. unfold set. now rewrite (proj2 (Nat.eqb_neq u t) N). Qed.
(** w' is w except for thread t *)
Definition only (t : nat) (w w' : sys) : Prop := forall u, u <> t -> slots w' u = slots w u /\ pcs w' u = pcs w u.
Lemma only_trans t a b c : only t a b -> only t b c -> only t a c.
Proof. intros A B u N. destruct (A u N), (B u N). split; congruence. Qed.
Lemma draw3 w t now acc s v s' r : pcs w t = Draw acc -> ptr w = Some t -> slots w t = Live s -> uint32 now s = Ok (v, s') -> exists w',
  only t w w' /\ ptr w' = Some t /\ flag w' = flag w /\ slots w' t = Live s' /\
  match acc ++ [v] with
  | [v1; v2; v3; v4] => pcs w' t = Idle /\ run w (Step t now :: Step t now :: Step t now :: r) = (' (w2, us) <- run w' r ;; Ok (w2, (t, stamp 4 (le4 v1 ++ le4 v2 ++ le4 v3 ++ le4 v4)) :: us))
  | acc' => pcs w' t = Draw acc' /\ run w (Step t now :: Step t now :: Step t now :: r) = run w' r
  end.
Proof.
  intros P T SL U. unfold uint32 in U. apply obind_ok in U. destruct U as (s1 & U1 & U). apply obind_ok in U. destruct U as (s2 & U2 & U). apply obind_ok in U. destruct U as (y & U3 & U).
  assert (V : v = temper y) by congruence. assert (S' : s' = mkr (mt s2) (S (mti s2)) (initialized s2)) by congruence.
  set (w1 := goto w t (Call t acc)). set (w2 := goto (put w1 t s2) t (Read t acc)). set (w3 := put w2 t s').
  assert (E1 : step w t now = Ok (w1, None)) by (unfold step; rewrite P, T; reflexivity).
  assert (E2 : step w1 t now = Ok (w2, None)) by (unfold step, w1; cbn [goto pcs]; rewrite set_same; unfold load; cbn [goto slots]; rewrite SL; cbn [obind]; rewrite U1; cbn [obind]; rewrite U2; reflexivity).
  assert (E3 : step w2 t now = match acc ++ [v] with [v1; v2; v3; v4] => Ok (goto w3 t Idle, Some (stamp 4 (le4 v1 ++ le4 v2 ++ le4 v3 ++ le4 v4))) | a => Ok (goto w3 t (Draw a), None) end).
  { unfold step. assert (PW : pcs w2 t = Read t acc) by (unfold w2, goto; cbn [pcs]; apply set_same). rewrite PW. unfold load. assert (LW : slots w2 t = Live s2) by (unfold w2, goto, put; cbn [slots]; apply set_same). rewrite LW. cbn [obind]. rewrite U3. cbn [obind]. cbv zeta. rewrite <- S', <- V. reflexivity. }
  assert (ON : forall c, only t w (goto w3 t c)) by (intros c u N; unfold w3, w2, w1, goto, put; cbn [slots pcs]; rewrite !set_other by exact N; split; reflexivity).
  assert (SE : forall c, slots (goto w3 t c) t = Live s') by (intros c; unfold w3, goto, put; cbn [slots]; apply set_same).
  assert (PE : forall c, pcs (goto w3 t c) t = c) by (intros c; unfold goto; cbn [pcs]; apply set_same).
  destruct (acc ++ [v]) as [|v1 [|v2 [|v3 [|v4 [|v5 rest]]]]] eqn:A.
  all: match type of E3 with _ = Ok (?W, _) => exists W end.
  all: split; [apply ON|]; split; [exact T|]; split; [reflexivity|]; split; [apply SE|]; split; [apply PE|].
  all: cbn [run]; rewrite E1; cbn [obind]; rewrite E2; cbn [obind]; rewrite E3; cbn [obind].
  all: match goal with |- context [obind (run ?W ?R) _] => destruct (run W R) as [[w4 us]| | |]; reflexivity end.
Qed.
Lemma whole_call w v t now u v' r : rel w v -> uuid4 v t now = Ok (u, v') -> exists w', rel w' v' /\ ptr w' = Some t /\
  run w (repeat (Step t now) (if rand_initialized v then 14 else 16) ++ r) = (' (w2, us) <- run w' r ;; Ok (w2, (t, u) :: us)).
Proof.
  intros (RF & RS & RP) E. unfold uuid4 in E. cbv zeta in E. apply obind_ok in E. destruct E as (s0 & E0 & E).
  apply obind_ok in E. destruct E as ((v1 & s1) & U1 & E). apply obind_ok in E. destruct E as ((v2 & s2) & U2 & E). apply obind_ok in E. destruct E as ((v3 & s3) & U3 & E). apply obind_ok in E. destruct E as ((v4 & s4) & U4 & E).
  assert (EU : u = stamp 4 (le4 v1 ++ le4 v2 ++ le4 v3 ++ le4 v4)) by congruence. assert (EV : v' = set_tls v t s4 true) by congruence.
  (* to the first number *)
  assert (PRE : exists w1, only t w w1 /\ ptr w1 = Some t /\ flag w1 = true /\ slots w1 t = Live s0 /\ pcs w1 t = Draw [] /\ forall k, run w (repeat (Step t now) (if rand_initialized v then 14 else 16) ++ k) = run w1 (repeat (Step t now) 12 ++ k)).
  { set (wa := goto (mksys (Some t) (flag w) (set (slots w) t (Live (get_ctx v t))) (pcs w)) t Check).
    assert (SA : exists wa, only t w wa /\ ptr wa = Some t /\ flag wa = flag w /\ slots wa t = Live (get_ctx v t) /\ pcs wa t = Check /\ step w t now = Ok (wa, None)).
    { unfold step. rewrite RP, RS. unfold get_ctx. specialize (RS t). destruct (tls v t) as [sx|]; eexists; (split; [|split; [|split; [|split; [|split; [|reflexivity]]]]]); cbn [goto ptr flag slots pcs].
      - intros x N. unfold goto. cbn [slots pcs]. rewrite set_other by exact N. split; reflexivity.
      - reflexivity.
      - reflexivity.
      - rewrite RS. reflexivity.
      - apply set_same.
      - intros x N. unfold goto. cbn [slots pcs]. rewrite !set_other by exact N. split; reflexivity.
      - reflexivity.
      - reflexivity.
      - apply set_same.
      - apply set_same. }
    clear wa. destruct SA as (wa & ON & PT & FL & SL & PC & S1). destruct (rand_initialized v) eqn:RI.
    - assert (s0 = get_ctx v t) as -> by congruence. exists (goto wa t (Draw [])). split; [intros x N; destruct (ON x N); unfold goto; cbn [slots pcs]; rewrite set_other by exact N; split; assumption|].
      split; [exact PT|]. split; [unfold goto; cbn [flag]; congruence|]. split; [exact SL|]. split; [unfold goto; cbn [pcs]; apply set_same|]. intros k. change (repeat (Step t now) 14 ++ k) with (Step t now :: Step t now :: (repeat (Step t now) 12 ++ k)). generalize (repeat (Step t now) 12 ++ k). intros K. cbn [run]. rewrite S1. cbn [obind].
      assert (S2 : step wa t now = Ok (goto wa t (Draw []), None)) by (unfold step; rewrite PC, FL, RF; reflexivity). rewrite S2. cbn [obind]. destruct (run (goto wa t (Draw [])) K) as [[]| | |]; reflexivity.
    - set (wb := goto wa t Seed). set (wc := goto (put wb t s0) t SetFlag). set (wd := goto (mksys (ptr wc) true (slots wc) (pcs wc)) t (Draw [])). exists wd.
      split; [intros x N; destruct (ON x N); unfold wd, wc, wb, goto, put; cbn [slots pcs]; rewrite !set_other by exact N; split; assumption|].
      split; [exact PT|]. split; [reflexivity|]. split; [unfold wd, wc, goto, put; cbn [slots]; apply set_same|]. split; [unfold wd, goto; cbn [pcs]; apply set_same|]. intros k. change (repeat (Step t now) 16 ++ k) with (Step t now :: Step t now :: Step t now :: Step t now :: (repeat (Step t now) 12 ++ k)). generalize (repeat (Step t now) 12 ++ k). intros K. cbn [run]. rewrite S1. cbn [obind].
      assert (S2 : step wa t now = Ok (wb, None)) by (unfold step; rewrite PC, FL, RF; reflexivity). rewrite S2. cbn [obind].
      assert (S3 : step wb t now = Ok (wc, None)) by (unfold step; assert (PB : pcs wb t = Seed) by (unfold wb, goto; cbn [pcs]; apply set_same); rewrite PB; assert (TB : ptr wb = Some t) by exact PT; rewrite TB; cbn [the obind]; unfold load; assert (LB : slots wb t = Live (get_ctx v t)) by exact SL; rewrite LB; cbn [obind]; rewrite E0; reflexivity). rewrite S3. cbn [obind].
      assert (S4 : step wc t now = Ok (wd, None)) by (unfold step; assert (PB : pcs wc t = SetFlag) by (unfold wc, goto; cbn [pcs]; apply set_same); rewrite PB; reflexivity). rewrite S4. cbn [obind].
      destruct (run wd K) as [[]| | |]; reflexivity. }
  destruct PRE as (w1 & O1 & T1 & F1 & L1 & P1 & K). rewrite K. change (repeat (Step t now) 12 ++ r) with (Step t now :: Step t now :: Step t now :: Step t now :: Step t now :: Step t now :: Step t now :: Step t now :: Step t now :: Step t now :: Step t now :: Step t now :: r).
  destruct (draw3 w1 t now _ _ _ _ (Step t now :: Step t now :: Step t now :: Step t now :: Step t now :: Step t now :: Step t now :: Step t now :: Step t now :: r) P1 T1 L1 U1) as (w2 & O2 & T2 & F2 & L2 & P2 & ->).
  destruct (draw3 w2 t now _ _ _ _ (Step t now :: Step t now :: Step t now :: Step t now :: Step t now :: Step t now :: r) P2 T2 L2 U2) as (w3 & O3 & T3 & F3 & L3 & P3 & ->).
  destruct (draw3 w3 t now _ _ _ _ (Step t now :: Step t now :: Step t now :: r) P3 T3 L3 U3) as (w4 & O4 & T4 & F4 & L4 & P4 & ->).
  destruct (draw3 w4 t now _ _ _ _ r P4 T4 L4 U4) as (w5 & O5 & T5 & F5 & L5 & P5 & ->).
  exists w5. split; [|split; [exact T5|rewrite EU; reflexivity]]. rewrite EV. assert (ON : only t w w5) by (eapply only_trans; [exact O1|]; eapply only_trans; [exact O2|]; eapply only_trans; [exact O3|]; eapply only_trans; eassumption). split; [|split].
  - cbn [rand_initialized set_tls]. congruence.
  - intros x. cbn [set_tls tls]. destruct (Nat.eqb_spec x t) as [->|N]; [exact L5|]. destruct (ON x N) as [-> _]. apply RS.
  - intros x. destruct (Nat.eq_dec x t) as [->|N]; [exact P5|]. destruct (ON x N) as [_ ->]. apply RP.
Qed.
(** the steps of a list of calls made one after the other: the first call of the program seeds *)
Definition one_by_one (calls : list (nat * Z)) : list act := concat (map (fun ic => repeat (Step (fst (snd ic)) (snd (snd ic))) (if Nat.eqb (fst ic) 0 then 16 else 14)%nat) (combine (seq 0 (length calls)) calls)).
Lemma serial_gen : forall calls w v i, rel w v -> rand_initialized v = negb (Nat.eqb i 0) -> forall us v', run4 v calls = Ok (us, v') ->
  exists w', rel w' v' /\ run w (concat (map (fun ic => repeat (Step (fst (snd ic)) (snd (snd ic))) (if Nat.eqb (fst ic) 0 then 16 else 14)%nat) (combine (seq i (length calls)) calls))) = Ok (w', combine (map fst calls) us).
Proof.
  induction calls as [|[t now] calls IH]; intros w v i R RI us v' E; cbn [run4] in E.
  - assert (v = v') as <- by congruence. exists w. split; [exact R|]. cbn [seq length combine map concat run]. reflexivity.
  - apply obind_ok in E. destruct E as ((u & v1) & E1 & E). apply obind_ok in E. destruct E as ((us1 & v2) & E2 & E). assert (us = u :: us1) as -> by congruence. assert (v2 = v') as -> by congruence.
    cbn [length seq combine map concat fst snd]. destruct (whole_call w v t now u v1 (concat (map (fun ic => repeat (Step (fst (snd ic)) (snd (snd ic))) (if Nat.eqb (fst ic) 0 then 16 else 14)%nat) (combine (seq (S i) (length calls)) calls))) R E1) as (w1 & R1 & _ & X).
    rewrite RI in X. replace (if negb (Nat.eqb i 0) then 14%nat else 16%nat) with (if Nat.eqb i 0 then 16%nat else 14%nat) in X by (destruct (Nat.eqb i 0); reflexivity). rewrite X.
    assert (RI1 : rand_initialized v1 = negb (Nat.eqb (S i) 0)).
    { clear - E1. unfold uuid4 in E1. cbv zeta in E1. repeat (apply obind_ok in E1; destruct E1 as (? & _ & E1); try match type of E1 with context [let '(_, _) := ?p in _] => destruct p end). assert (v1 = set_tls v t r2 true) as -> by congruence. reflexivity. }
    destruct (IH w1 v1 (S i) R1 RI1 us1 v' E2) as (w' & R' & Y). rewrite Y. cbn [obind]. exists w'. split; [exact R'|reflexivity].
Qed.
Theorem C73_serial : forall calls, Forall (fun c => 0 <= snd c < 4294967296) calls -> exists us v w, run4 start calls = Ok (us, v) /\ length us = length calls /\ run sys0 (one_by_one calls) = Ok (w, combine (map fst calls) us).
Proof.
  intros calls F. destruct (run4_ok calls start [] inv_start F) as (us & v & E & L & _). exists us, v.
  assert (R : rel sys0 start) by (split; [reflexivity|]; split; intros t; reflexivity). destruct (serial_gen calls sys0 start 0 R eq_refl us v E) as (w & _ & X). exists w. split; [exact E|]. split; [exact L|exact X].
Qed.

(** a thread that ends while another one is in the call: freed memory is used *)
Theorem C73_exit_refuted : exists l, run sys0 l = UB /\ Forall (fun a => match a with Step _ now => now = 1700000000 | Exit t => t = 2%nat end) l /\
  exists w us, run sys0 (filter (fun a => match a with Exit _ => false | _ => true end) l) = Ok (w, us).
Proof.
  exists (Step 1 1700000000 :: repeat (Step 2 1700000000) 16 ++ [Exit 2; Step 1 1700000000; Step 1 1700000000; Step 1 1700000000]). split; [vm_compute; reflexivity|]. split; [repeat constructor|].
  assert (X : match run sys0 (filter (fun a => match a with Exit _ => false | _ => true end) (Step 1 1700000000 :: repeat (Step 2 1700000000) 16 ++ [Exit 2; Step 1 1700000000; Step 1 1700000000; Step 1 1700000000])) with Ok _ => true | _ => false end = true) by (vm_compute; reflexivity).
  destruct (run sys0 _) as [[w us]| | |]; try discriminate X. exists w, us. reflexivity.
Qed.
(** two threads at the end of the same block: one of them reads past its end *)
Theorem C73_end_refuted : exists l, run sys0 l = UB /\ forall a, In a l -> exists t now, a = Step t now.
Proof.
  exists (one_by_one (repeat (1%nat, 1700000000) 155) ++ [Step 2 1700000000; Step 1 1700000000; Step 1 1700000000] ++ repeat (Step 1 1700000000) 11 ++ repeat (Step 2 1700000000) 4 ++ [Step 1 1700000000]). split; [vm_compute; reflexivity|].
  assert (X : forallb (fun a => match a with Step _ _ => true | _ => false end) (one_by_one (repeat (1%nat, 1700000000) 155) ++ [Step 2 1700000000; Step 1 1700000000; Step 1 1700000000] ++ repeat (Step 1 1700000000) 11 ++ repeat (Step 2 1700000000) 4 ++ [Step 1 1700000000]) = true) by (vm_compute; reflexivity).
  intros a I0. rewrite forallb_forall in X. specialize (X a I0). destruct a as [t now|]; [now exists t, now|discriminate X].
Qed.

(** two first calls, in the same second: both see that nothing is seeded, the block is seeded twice: the two calls return the same UUID *)
Theorem C73_same_refuted : exists l a b, (exists w, run sys0 l = Ok (w, [(1%nat, a); (2%nat, b)])) /\ a = b /\ Forall (fun x => x = Step 1 1700000000 \/ x = Step 2 1700000000) l.
Proof.
  set (l := map (fun t => Step t 1700000000) ([1; 2; 1; 2] ++ repeat 1 14 ++ repeat 2 14)%nat).
  assert (X : match run sys0 l with Ok (_, [(1%nat, a); (2%nat, b)]) => if list_eq_dec Z.eq_dec a b then true else false | _ => false end = true) by (vm_compute; reflexivity).
  destruct (run sys0 l) as [[w [|[[|[|?]] a] [|[[|[|[|?]]] b] [|? ?]]]]| | |] eqn:R; try discriminate X. exists l, a, b. split; [exists w; exact R|]. split; [destruct (list_eq_dec Z.eq_dec a b) as [EQ|]; [exact EQ|discriminate X]|].
  apply Forall_forall. intros x I0. unfold l in I0. apply in_map_iff in I0. destruct I0 as (t & <- & I0). rewrite !in_app_iff in I0. destruct I0 as [I0|[I0|I0]]; [|apply repeat_spec in I0; subst; now left|apply repeat_spec in I0; subst; now right].
  cbn [In] in I0. destruct I0 as [<-|[<-|[<-|[<-|[]]]]]; auto.
Qed.
(** two first calls: the block is seeded again between the refilling and the reading, which reads past its end *)
Theorem C73_first_refuted : exists l, run sys0 l = UB /\ Forall (fun x => x = Step 1 1700000000 \/ x = Step 2 1700000000) l /\ (length l < 20)%nat.
Proof.
  exists (map (fun t => Step t 1700000000) [1; 2; 1; 2; 1; 1; 1; 1; 2; 1]%nat). split; [vm_compute; reflexivity|]. split; [cbn [map]; repeat (constructor; [auto|]); constructor|cbn [map length]; lia].
Qed.

(** once a first call has returned: calls that overlap in any way, in any number of threads none of which ends, do nothing undefined for 620 steps *)
Lemma gen_len l k k1 km : length l = 624%nat -> (k < 624)%nat -> (k1 < 624)%nat -> (km < 624)%nat -> exists l', gen l k k1 km = Ok l' /\ length l' = 624%nat.
Proof.
  intros L A B C. unfold gen, rd. destruct (nth_error l k) as [a|] eqn:EA; [|apply nth_error_None in EA; lia]. destruct (nth_error l k1) as [b|] eqn:EB; [|apply nth_error_None in EB; lia]. destruct (nth_error l km) as [c|] eqn:EC; [|apply nth_error_None in EC; lia].
  cbn [obind]. unfold wr. rewrite L. rewrite (proj2 (Nat.ltb_lt k 624) A). eexists. split; [reflexivity|]. rewrite upd_length. exact L.
Qed.
Lemma gen1_len : forall n kk l, length l = 624%nat -> (kk + n <= 227)%nat -> exists l', gen1 n kk l = Ok l' /\ length l' = 624%nat.
Proof.
  induction n as [|n IH]; intros kk l L B; cbn [gen1]; [now exists l|]. unfold MIDDLE_WORD. destruct (gen_len l kk (kk + 1) (kk + 397) L) as (l1 & -> & L1); try lia. cbn [obind]. apply IH; [exact L1|lia].
Qed.
Lemma gen2_len : forall n kk l, length l = 624%nat -> (227 <= kk)%nat -> (kk + n <= 623)%nat -> exists l', gen2 n kk l = Ok l' /\ length l' = 624%nat.
Proof.
  induction n as [|n IH]; intros kk l L A B; cbn [gen2]; [now exists l|]. unfold MIDDLE_WORD, RECURRENCE. destruct (gen_len l kk (kk + 1) (kk - (624 - 397)) L) as (l1 & -> & L1); try lia. cbn [obind]. apply IH; [exact L1|lia|lia].
Qed.
Lemma refill_len s : length (mt s) = 624%nat -> exists s', refill s = Ok s' /\ length (mt s') = 624%nat /\ initialized s' = initialized s /\ mti s' = if Nat.leb 624 (mti s) then 0%nat else mti s.
Proof.
  intros L. unfold refill. change RECURRENCE with 624%nat. destruct (Nat.leb_spec 624 (mti s)) as [G|G]; [|exists s; auto].
  change (624 - MIDDLE_WORD)%nat with 227%nat. change (624 - 1 - 227)%nat with 396%nat.
  destruct (gen1_len 227 0 (mt s) L ltac:(lia)) as (l1 & -> & L1). cbn [obind]. destruct (gen2_len 396 227 l1 L1 ltac:(lia) ltac:(lia)) as (l2 & -> & L2). cbn [obind].
  destruct (gen_len l2 (624 - 1) 0 (MIDDLE_WORD - 1) L2) as (l3 & -> & L3); try (unfold MIDDLE_WORD; lia). cbn [obind]. eexists. split; [reflexivity|]. auto.
Qed.
(** n numbers have been read *)
Definition good_block (n : nat) (s : rstate) : Prop := length (mt s) = 624%nat /\ (initialized s = INITIALIZED -> (mti s <= n)%nat).
Definition live (w : sys) (p : nat) : Prop := exists s, slots w p = Live s.
Definition fits (w : sys) (c : pc) : Prop :=
  match c with
  | Idle | Check | Draw _ => True
  | Call p _ => live w p
  | Read p _ => exists s, slots w p = Live s /\ initialized s = INITIALIZED
  | Seed | SetFlag => False
  end.
Definition busy (n : nat) (w : sys) : Prop :=
  flag w = true /\ (exists p, ptr w = Some p /\ live w p) /\ (forall t, match slots w t with Live s => good_block n s | Empty => True | Freed => False end) /\ forall t, fits w (pcs w t).
Lemma busy_goto n w t c : busy n w -> fits w c -> busy n (goto w t c).
Proof.
  intros (F & P & S & C) X. split; [exact F|]. split; [exact P|]. split; [exact S|]. intros u. unfold goto. cbn [pcs]. destruct (Nat.eq_dec u t) as [->|N]; [rewrite set_same; destruct c; exact X|]. rewrite set_other by exact N. specialize (C u). destruct (pcs w u); exact C.
Qed.
(** a block is replaced by one that is initialised, or that is as it was *)
Lemma busy_put n m w p s s0 : busy n w -> (n <= m)%nat -> slots w p = Live s0 -> good_block m s -> (initialized s = INITIALIZED \/ initialized s = initialized s0) -> busy m (put w p s).
Proof.
  intros (F & P & S & C) NM S0 G IN. assert (LV : forall q, live w q -> live (put w p s) q).
  { intros q [x X]. unfold live, put. cbn [slots]. destruct (Nat.eq_dec q p) as [->|N]; [rewrite set_same; now exists s|rewrite set_other by exact N; now exists x]. }
  split; [exact F|]. split; [destruct P as (q & Q & V); exists q; split; [exact Q|apply LV, V]|]. split.
  - intros t. unfold put. cbn [slots]. destruct (Nat.eq_dec t p) as [->|N]; [rewrite set_same; exact G|]. rewrite set_other by exact N. specialize (S t). destruct (slots w t) as [|x|]; auto. destruct S as [S1 S2]. split; [exact S1|]. intros X. specialize (S2 X). lia.
  - intros t. specialize (C t). unfold put at 2. cbn [pcs]. destruct (pcs w t) as [| | | |acc|q acc|q acc]; cbn [fits] in *; auto.
    + destruct C as (x & X & XI). unfold put. cbn [slots]. destruct (Nat.eq_dec q p) as [->|N]; [rewrite set_same; exists s; split; [reflexivity|]; destruct IN as [IN|IN]; congruence|]. rewrite set_other by exact N. now exists x.
Qed.
Lemma busy_more n m w : busy n w -> (n <= m)%nat -> busy m w.
Proof. intros (F & P & S & C) L. split; [exact F|]. split; [exact P|]. split; [|exact C]. intros t. specialize (S t). destruct (slots w t) as [|x|]; auto. destruct S as [S1 S2]. split; [exact S1|]. intros X. specialize (S2 X). lia. Qed.
Lemma busy_step n w t now : busy n w -> (n < 624)%nat -> w32 now -> exists w' o, step w t now = Ok (w', o) /\ busy (S n) w'.
Proof.
  intros B N W. pose proof B as (F & P & SL & C). unfold step. pose proof (C t) as Ct. destruct (pcs w t) as [| | | |acc|q acc|q acc]; cbn [fits] in Ct; try contradiction.
  - specialize (SL t) as SLt. destruct (slots w t) as [|x|] eqn:ST; try contradiction.
    + eexists _, _. split; [reflexivity|]. apply busy_more with n; [|lia].
      assert (LV : forall q, live w q -> exists s, set (slots w) t (Live (mkr (repeat 0 624) 0 0)) q = Live s).
      { intros q [x X]. destruct (Nat.eq_dec q t) as [->|Q]; [rewrite set_same; eexists; reflexivity|rewrite set_other by exact Q; now exists x]. }
      apply busy_goto.
      * split; [exact F|]. split; [exists t; split; [reflexivity|]; unfold live; cbn [slots]; rewrite set_same; eexists; reflexivity|]. split.
        -- intros u. cbn [slots]. destruct (Nat.eq_dec u t) as [->|Q]; [rewrite set_same; split; [apply repeat_length|cbn [mti]; lia]|rewrite set_other by exact Q; apply SL].
        -- intros u. cbn [pcs]. specialize (C u). destruct (pcs w u) as [| | | |acc|q acc|q acc]; cbn [fits] in *; auto.
           ++ apply LV, C.
           ++ destruct C as (x & X & XI). cbn [slots]. destruct (Nat.eq_dec q t) as [->|Q]; [congruence|]. rewrite set_other by exact Q. now exists x.
      * exact Logic.I.
    + eexists _, _. split; [reflexivity|]. apply busy_more with n; [|lia]. assert (LT : live w t) by (now exists x). apply busy_goto.
      * split; [exact F|]. split; [exists t; split; [reflexivity|exact LT]|]. split; [exact SL|]. intros u. cbn [pcs]. specialize (C u). destruct (pcs w u); exact C.
      * exact Logic.I.
  - rewrite F. eexists _, _. split; [reflexivity|]. apply busy_more with n; [|lia]. apply busy_goto; [exact B|exact Ct].
  - destruct P as (p & PP & V). rewrite PP. cbn [the obind]. eexists _, _. split; [reflexivity|]. apply busy_more with n; [|lia]. apply busy_goto; [exact B|exact V].
  - destruct Ct as (s & X). unfold load. rewrite X. cbn [obind]. pose proof (SL q) as G. rewrite X in G. destruct G as (GL & GI).
    destruct (Z.eqb_spec (initialized s) INITIALIZED) as [EI|EI]; cbn [obind].
    + destruct (refill_len s GL) as (s2 & -> & L2 & I2 & M2). cbn [obind]. eexists _, _. split; [reflexivity|]. specialize (GI EI). rewrite (proj2 (Nat.leb_gt 624 (mti s)) ltac:(lia)) in M2. apply busy_goto.
      * apply busy_put with n s; auto. split; [exact L2|]. intros _. lia.
      * cbn [fits]. exists s2. unfold put. cbn [slots]. rewrite set_same. split; [reflexivity|congruence].
    + destruct (srandom_ok (mt19937 now) now s W (proj1 (mt19937_ok now)) GL) as (s1 & E1 & (L1 & _) & _). rewrite E1. cbn [obind].
      assert (I1 : initialized s1 = INITIALIZED /\ mti s1 = 624%nat).
      { clear - E1. unfold srandom in E1. apply obind_ok in E1. destruct E1 as (l1 & _ & E1). apply obind_ok in E1. destruct E1 as (l2 & _ & E1). assert (s1 = mkr l2 RECURRENCE INITIALIZED) as -> by congruence. split; reflexivity. }
      destruct I1 as [I1 M1]. destruct (refill_len s1 L1) as (s2 & -> & L2 & I2 & M2). cbn [obind]. eexists _, _. split; [reflexivity|]. rewrite M1 in M2. change (mti s2 = 0%nat) in M2. apply busy_goto.
      * apply busy_put with n s; auto; [split; [exact L2|intros _; lia]|left; congruence].
      * cbn [fits]. exists s2. unfold put. cbn [slots]. rewrite set_same. split; [reflexivity|congruence].
  - destruct Ct as (s & X & XI). unfold load. rewrite X. cbn [obind]. pose proof (SL q) as G. rewrite X in G. destruct G as (GL & GI). specialize (GI XI). unfold rd. destruct (nth_error (mt s) (mti s)) as [y|] eqn:EY; [|apply nth_error_None in EY; lia]. cbn [obind]. cbv zeta.
    assert (BP : busy (S n) (put w q (mkr (mt s) (S (mti s)) (initialized s)))) by (apply busy_put with n s; auto; split; [exact GL|cbn [mti]; lia]).
    destruct (acc ++ [temper y]) as [|v1 [|v2 [|v3 [|v4 [|v5 rest]]]]]; eexists _, _; (split; [reflexivity|]); (apply busy_goto; [exact BP|exact Logic.I]).
Qed.
Lemma busy_run : forall l n w, busy n w -> (n + length l <= 624)%nat -> Forall (fun a => exists t now, a = Step t now /\ w32 now) l -> exists w' us, run w l = Ok (w', us).
Proof.
  induction l as [|a l IH]; intros n w B L F; [now exists w, []|]. inversion F as [|? ? (t & now & -> & W) F']; subst. cbn [length] in L. cbn [run]. destruct (busy_step n w t now B ltac:(lia) W) as (w1 & o & -> & B1). cbn [obind].
  destruct (IH (S n) w1 B1 ltac:(lia) F') as (w2 & us & ->). cbn [obind]. eexists _, _. reflexivity.
Qed.
Lemma uint32_block now s v s' : length (mt s) = 624%nat -> initialized s = INITIALIZED -> uint32 now s = Ok (v, s') -> length (mt s') = 624%nat /\ initialized s' = INITIALIZED /\ mti s' = S (if Nat.leb 624 (mti s) then 0%nat else mti s).
Proof.
  intros L IN U. unfold uint32 in U. rewrite IN, Z.eqb_refl in U. cbn [obind] in U. destruct (refill_len s L) as (s1 & E1 & L1 & I1 & M1). rewrite E1 in U. cbn [obind] in U. apply obind_ok in U. destruct U as (y & _ & U). assert (s' = mkr (mt s1) (S (mti s1)) (initialized s1)) as -> by congruence. cbn [mt mti initialized]. split; [exact L1|]. split; congruence.
Qed.
Lemma first_block v t now u v1 : w32 now -> rand_initialized v = false -> length (mt (get_ctx v t)) = 624%nat -> uuid4 v t now = Ok (u, v1) -> exists s4, v1 = set_tls v t s4 true /\ length (mt s4) = 624%nat /\ initialized s4 = INITIALIZED /\ mti s4 = 4%nat.
Proof.
  intros W RI LC E. unfold uuid4 in E. cbv zeta in E. apply obind_ok in E. destruct E as (s0 & E0 & E). rewrite RI in E0.
  apply obind_ok in E. destruct E as ((v1' & s1) & U1 & E). apply obind_ok in E. destruct E as ((v2 & s2) & U2 & E). apply obind_ok in E. destruct E as ((v3 & s3) & U3 & E). apply obind_ok in E. destruct E as ((v4 & s4) & U4 & E).
  assert (EV : v1 = set_tls v t s4 true) by congruence. clear E. exists s4. split; [exact EV|]. clear EV.
  destruct (srandom_ok (mt19937 now) now (get_ctx v t) W (proj1 (mt19937_ok now)) LC) as (sx & E1 & (L1 & _) & _). assert (sx = s0) by congruence. subst sx. clear E1. clear LC. generalize dependent (get_ctx v t). intros c E0.
  unfold srandom in E0. apply obind_ok in E0. destruct E0 as (l1 & _ & E0). apply obind_ok in E0. destruct E0 as (l2 & _ & E0). assert (IN : initialized s0 = INITIALIZED) by (assert (s0 = mkr l2 RECURRENCE INITIALIZED) as -> by congruence; reflexivity). assert (M0 : mti s0 = 624%nat) by (assert (s0 = mkr l2 RECURRENCE INITIALIZED) as -> by congruence; reflexivity). clear E0.
  assert (ST : forall k s y s', length (mt s) = 624%nat -> initialized s = INITIALIZED -> uint32 now s = Ok (y, s') -> (if Nat.leb 624 (mti s) then 0%nat else mti s) = k -> length (mt s') = 624%nat /\ initialized s' = INITIALIZED /\ mti s' = S k) by (intros k s y s' A B C <-; exact (uint32_block now s y s' A B C)).
  destruct (ST 0%nat s0 v1' s1 L1 IN U1) as (B1 & I1 & M1); [rewrite M0; reflexivity|].
  destruct (ST 1%nat s1 v2 s2 B1 I1 U2) as (B2 & I2 & M2); [rewrite M1; reflexivity|].
  destruct (ST 2%nat s2 v3 s3 B2 I2 U3) as (B3 & I3 & M3); [rewrite M2; reflexivity|].
  destruct (ST 3%nat s3 v4 s4 B3 I3 U4) as (B4 & I4 & M4); [rewrite M3; reflexivity|]. auto.
Qed.
Lemma run4_one v t now us v' : run4 v [(t, now)] = Ok (us, v') -> exists u v1, uuid4 v t now = Ok (u, v1).
Proof. intros E. cbn [run4] in E. apply obind_ok in E. destruct E as ((u & v1) & E & _). now exists u, v1. Qed.
Lemma first_call t now l : w32 now -> exists u w us0, us0 = [(t, u)] /\ busy 4 w /\ run sys0 (repeat (Step t now) 16 ++ l) = (' (w2, us) <- run w l ;; Ok (w2, us0 ++ us)).
Proof.
  intros W. assert (W1 : Forall (fun c : nat * Z => 0 <= snd c < 2 ^ 32) [(t, now)]) by (constructor; [exact W|constructor]).
  destruct (run4_ok [(t, now)] start [] inv_start W1) as (us & v & E0 & LU & _). destruct (run4_one start t now us v E0) as (u & v1 & E).
  assert (R : rel sys0 start) by (split; [reflexivity|]; split; intros x; reflexivity). destruct (whole_call sys0 start t now u v1 l R E) as (w1 & (RF & RS & RP) & PT & X). 
  assert (LC : length (mt (get_ctx start t)) = 624%nat) by (unfold get_ctx; cbn [tls start mt]; apply repeat_length).
  destruct (first_block start t now u v1 W eq_refl LC E) as (s4 & EV & B4 & I4 & M4). assert (RI : rand_initialized start = false) by reflexivity. rewrite RI in X. exists u, w1, [(t, u)]. split; [reflexivity|]. split; [|exact X]. clear X.
  assert (ST : slots w1 t = Live s4) by (rewrite RS, EV; cbn [set_tls tls]; rewrite Nat.eqb_refl; reflexivity). split; [rewrite RF, EV; reflexivity|]. split; [exists t; split; [exact PT|exists s4; exact ST]|]. split.
  - intros x. destruct (Nat.eq_dec x t) as [->|N]; [rewrite ST; split; [exact B4|lia]|]. rewrite RS, EV. cbn [set_tls tls start]. rewrite (proj2 (Nat.eqb_neq x t) N). exact Logic.I.
  - intros x. rewrite RP. exact Logic.I.
Qed.
Theorem C73_busy : forall t now l, 0 <= now < 4294967296 -> (length l <= 620)%nat -> Forall (fun a => exists t now, a = Step t now /\ 0 <= now < 4294967296) l ->
  exists u w us, run sys0 (repeat (Step t now) 16 ++ l) = Ok (w, (t, u) :: us).
Proof.
  intros t now l W L F. destruct (first_call t now l W) as (u & w1 & us0 & -> & BB & ->).
  assert (L4 : (4 + length l <= 624)%nat) by (apply (Nat.add_le_mono_l _ _ 4) in L; exact L).
  destruct (busy_run l 4 w1 BB L4 F) as (w' & us' & ->). cbn [obind app]. exists u, w', us'. reflexivity.
Qed.
(** overlapping calls of two threads that hand out different UUIDs with the right bits *)
Example C73_ex : match run sys0 (Step 1 1700000000 :: Step 2 1700000000 :: concat (repeat [Step 1 1700000000; Step 2 1700000000] 15)) with Ok (_, [(1%nat, a); (2%nat, b)]) => a <> b /\ nth 6 a 0 / 16 = 4 /\ nth 6 b 0 / 16 = 4 | _ => False end.
Proof. vm_compute. repeat split. discriminate. Qed.
Example C73_busy_ex : match run sys0 (repeat (Step 1 1700000000) 16 ++ concat (repeat [Step 1 1700000000; Step 2 1700000001] 14)) with Ok (_, [(1%nat, a); (1%nat, b); (2%nat, c)]) => a <> b /\ b <> c /\ a <> c | _ => False end.
Proof. vm_compute. repeat split; discriminate. Qed.
Print Assumptions C73_bits.
Print Assumptions C73_serial.
Print Assumptions C73_busy.
Print Assumptions C73_same_refuted.
Print Assumptions C73_first_refuted.
Print Assumptions C73_exit_refuted.
Print Assumptions C73_end_refuted.
