From Verif Require Import Prelude Blocks BufModel.
Open Scope Z_scope.

(** [contains b s]: the buffer's contents are the bytes s; [off b] bytes were drained since the block was allocated. *)
Definition contains (b : buf) (s : list Z) : Prop :=
  (exists pre rest, block b = pre ++ map Some s ++ rest /\ Z.of_nat (length pre) = off b) /\
  len b = Z.of_nat (length s) /\ 0 <= off b /\ (blk b = None -> off b = 0) /\
  cap b <= max b <= cap b * (1 + off b) /\ (off b = 0 -> max b = cap b) /\ cap b < 2 ^ 31.

Lemma cap_block b : cap b = Z.of_nat (length (block b)).
Proof. unfold cap, block. destruct (blk b); reflexivity. Qed.

Lemma contains_room b s : contains b s -> off b + len b <= cap b.
Proof.
  intros ((pre & rest & E & P) & L & _). rewrite cap_block, E, !app_length, map_length. lia.
Qed.

Lemma new_ok : contains buf_new [].
Proof.
  split; [exists [], []; auto|]. unfold cap. cbn [buf_new blk len max off]. cbn [length]. repeat split; auto; lia.
Qed.
Lemma get_ok b s : contains b s -> buf_get b = Ok (match s with [] => None | _ => Some s end).
Proof.
  intros ((pre & rest & E & P) & L & O & _). unfold buf_get. destruct s as [|x s].
  - cbn in L. rewrite L. reflexivity.
  - replace (len b =? 0) with false by (cbn in L; lia). rewrite E. replace (Z.to_nat (off b)) with (length pre) by lia.
    rewrite rdn_ok by lia. rewrite L, Nat2Z.id, firstn_all. reflexivity.
Qed.
Lemma drain_ok b s n : contains b s -> 0 <= n ->
  exists b', buf_drain b n = (if n =? 0 then 0 else Z.of_nat (length s - Z.to_nat n), b') /\ contains b' (skipn (Z.to_nat n) s) /\
    blk b' = blk b /\ off b' = (if n <? Z.of_nat (length s) then off b + n else off b).
Proof.
  intros H N. pose proof H as ((pre & rest & E & P) & L & O & NB & M1 & M2 & C). unfold buf_drain.
  destruct (Z.eqb_spec n 0) as [->|N0].
  { exists b. split; [reflexivity|]. cbn [Z.to_nat skipn]. split; [|split; [reflexivity|]].
    - exact H.
    - destruct (0 <? _); lia. }
  rewrite L. destruct (n <? Z.of_nat (length s)) eqn:G.
  - assert (M : (max b - ((- off b) mod W64)) mod W64 = max b + off b).
    { assert (off b <= cap b). { rewrite cap_block, E, app_length. lia. }
      assert (max b + off b < W64).
      { assert (cap b * (1 + off b) <= 2 ^ 31 * 2 ^ 31) by nia. unfold W64. lia. }
      rewrite Zminus_mod_idemp_r. replace (max b - - off b) with (max b + off b) by lia. apply Z.mod_small.
      assert (0 <= cap b) by (rewrite cap_block; lia). lia. }
    cbv zeta. cbn [len]. eexists. split; [apply f_equal2; [lia|reflexivity]|]. cbn [blk off]. split; [|auto].
    split; [|cbn [len max off]; split; [rewrite skipn_length; lia|split; [lia|split; [|split; [|split; [lia|exact C]]]]]].
    + exists (pre ++ map Some (firstn (Z.to_nat n) s)), rest. unfold block. cbn [blk off]. fold (block b). rewrite E. split.
      * rewrite <- app_assoc. f_equal. rewrite app_assoc, <- map_app, firstn_skipn. reflexivity.
      * rewrite app_length, map_length, firstn_length. lia.
    + intros X. cbn [blk] in X. unfold block in E. rewrite X in E. destruct pre; [|discriminate]. destruct s; [cbn in G; lia|discriminate].
    + rewrite M. change (cap (mkbuf _ _ (blk b) _)) with (cap b). assert (0 <= cap b) by (rewrite cap_block; lia).
      assert (off b <= cap b). { rewrite cap_block, E, app_length. lia. } nia.
  - eexists. split; [apply f_equal2; [lia|reflexivity]|]. cbn [blk off]. split; [|auto]. rewrite skipn_all2 by lia.
    split; [|cbn [len max off length blk]; change (cap (mkbuf 0 (max b) (blk b) (off b))) with (cap b); repeat split; auto; lia].
    exists pre, (map Some s ++ rest). unfold block. cbn [blk off]. fold (block b). auto.
Qed.
Lemma remove_ok b s n : contains b s -> 0 <= n ->
  exists b', buf_remove b n = Ok (firstn (Z.to_nat n) s, Z.min n (Z.of_nat (length s)), b') /\ contains b' (skipn (Z.to_nat n) s) /\
   blk b' = blk b /\ off b' = (if n <? Z.of_nat (length s) then off b + n else off b).
Proof.
  intros H N. pose proof H as ((pre & rest & E & P) & L & O & _). unfold buf_remove. rewrite L.
  set (o := if n >? Z.of_nat (length s) then Z.of_nat (length s) else n).
  assert (Oo : o = Z.min n (Z.of_nat (length s))) by (subst o; destruct (n >? _) eqn:G; lia).
  cbv zeta. rewrite E. replace (Z.to_nat (off b)) with (length pre) by lia. rewrite rdn_ok by lia. cbn [obind].
  destruct (drain_ok b s o H) as (b' & D1 & D2 & D3 & D4); [lia|]. rewrite D1. cbn [snd]. exists b'.
  assert (F : firstn (Z.to_nat o) s = firstn (Z.to_nat n) s).
  { rewrite Oo. destruct (Z.le_gt_cases n (Z.of_nat (length s))); [f_equal; lia|]. rewrite !firstn_all2 by lia. reflexivity. }
  assert (K : skipn (Z.to_nat o) s = skipn (Z.to_nat n) s).
  { rewrite Oo. destruct (Z.le_gt_cases n (Z.of_nat (length s))); [f_equal; lia|]. rewrite !skipn_all2 by lia. reflexivity. }
  rewrite F, Oo. split; [reflexivity|]. rewrite <- K. split; [exact D2|]. split; [exact D3|]. rewrite D4, Oo.
  destruct (n <? _) eqn:G1, (Z.min _ _ <? _) eqn:G2; lia.
Qed.

(** room for n more bytes without reallocation, or a reallocation that is allowed (nothing drained) *)
Definition can_grow (b : buf) (s : list Z) (n : Z) : Prop :=
  off b + Z.of_nat (length s) + n <= cap b \/ (off b = 0 /\ Z.of_nat (length s) + Z.max 1024 n < 2 ^ 31).

Lemma unused_ok b s : contains b s -> buf_unused b = max b - len b /\ cap b - off b - len b <= buf_unused b /\
  (off b = 0 -> buf_unused b = cap b - len b).
Proof.
  intros H. pose proof (contains_room _ _ H) as R. destruct H as ((pre & rest & E & P) & L & O & NB & M1 & M2 & C).
  assert (off b <= cap b) by lia. assert (max b < W64).
  { assert (cap b * (1 + off b) <= 2 ^ 31 * 2 ^ 31) by nia. unfold W64. lia. }
  assert (U : buf_unused b = max b - len b) by (unfold buf_unused; apply Z.mod_small; lia). rewrite U.
  split; [reflexivity|]. split; [lia|]. intros X. rewrite M2; auto.
Qed.
Lemma reserve_ok b s n : contains b s -> 0 <= n -> can_grow b s n ->
  exists b', buf_reserve b n = Ok b' /\ contains b' s /\ off b' + Z.of_nat (length s) + n <= cap b' /\ off b' = off b /\ cap b <= cap b' /\
    (off b <> 0 -> b' = b).
Proof.
  intros H N G. destruct (unused_ok _ _ H) as (U1 & U2 & U3). pose proof (contains_room _ _ H) as R. unfold buf_reserve.
  pose proof H as ((pre & rest & E & P) & L & O & NB & M1 & M2 & C).
  destruct (n >? buf_unused b) eqn:Q.
  - destruct G as [G|[G1 G2]]; [lia|]. unfold buf_expand. cbv zeta. set (r := if n <? 1024 then 1024 else n).
    assert (Er : r = Z.max 1024 n) by (subst r; destruct (n <? 1024) eqn:X; lia).
    rewrite (Z.mod_small (len b + r)) by (unfold W64; lia).
    assert (RA : realloc b (len b + r) = Ok (block b ++ repeat None (Z.to_nat (len b + r) - length (block b)))).
    { assert (Le : (length (block b) <= Z.to_nat (len b + r))%nat).
      { specialize (U3 G1). rewrite cap_block in U3. lia. }
      unfold realloc, block in *. destruct (blk b) as [l|]; [|cbn [length app]; now rewrite Nat.sub_0_r].
      rewrite G1. cbn [Z.eqb]. now rewrite firstn_all2. }
    rewrite RA. cbn [obind]. eexists. split; [reflexivity|].
    assert (CP : cap (mkbuf (len b) (len b + r) (Some (block b ++ repeat None (Z.to_nat (len b + r) - length (block b)))) 0) = len b + r).
    { rewrite cap_block. unfold block at 1. cbn [blk]. rewrite app_length, repeat_length. specialize (U3 G1). rewrite cap_block in U3. lia. }
    split; [|rewrite CP; cbn [off]; repeat split; try lia].
    split; [|rewrite CP; cbn [len max off blk]; repeat split; try lia; congruence].
    exists [], (rest ++ repeat None (Z.to_nat (len b + r) - length (block b))). unfold block at 1. cbn [blk off]. rewrite E at 1.
    destruct pre; [|cbn [length] in P; lia]. cbn [app length]. split; [now rewrite <- app_assoc|reflexivity].
  - exists b. split; [reflexivity|]. split; [exact H|]. split; [|repeat split; auto; lia].
    destruct G as [G|[G1 G2]]; [lia|]. specialize (U3 G1). lia.
Qed.
Lemma add_ok b s d : contains b s -> can_grow b s (Z.of_nat (length d)) ->
  exists b', buf_add b d = Ok b' /\ contains b' (s ++ d) /\ off b' = off b /\ cap b <= cap b' /\ (off b <> 0 -> cap b' = cap b).
Proof.
  intros H G. destruct (reserve_ok b s (Z.of_nat (length d)) H) as (b1 & R1 & R2 & R3 & R4 & R5 & R6); [lia|exact G|].
  unfold buf_add. unfold buf_reserve in R1. rewrite R1. cbn [obind].
  pose proof R2 as ((pre & rest & E & P) & L & O & NB & M1 & M2 & C).
  assert (LR : (length d <= length rest)%nat).
  { rewrite cap_block, E, !app_length, map_length in R3. lia. }
  rewrite E, app_assoc. replace (Z.to_nat (off b1 + len b1)) with (length (pre ++ map Some s)) by (rewrite app_length, map_length; lia).
  rewrite wrn_ok by exact LR. cbn [obind]. rewrite Z.mod_small by (unfold W64; lia).
  eexists. split; [reflexivity|]. set (nl := (pre ++ map Some s) ++ map Some d ++ skipn (length d) rest).
  set (b2 := mkbuf _ _ _ _).
  assert (B2 : block b2 = match blk b1 with Some _ => nl | None => [] end) by (unfold block, b2; cbn [blk]; destruct (blk b1); reflexivity).
  assert (LN : length nl = length (block b1)).
  { unfold nl. rewrite E, !app_length, !map_length, skipn_length. lia. }
  assert (CP : cap b2 = cap b1).
  { rewrite !cap_block, B2. unfold block. destruct (blk b1) as [l0|] eqn:Q; [|reflexivity].
    rewrite LN. unfold block. now rewrite Q. }
  split; [|rewrite CP; unfold b2; cbn [off]; repeat split; auto; intros X; now rewrite (R6 X)].
  split; [|rewrite CP; unfold b2; cbn [len max off blk]; rewrite app_length; repeat split; auto; try lia;
     destruct (blk b1); intros; [discriminate|auto]].
  rewrite B2. unfold b2; cbn [off]. unfold block in E, LN. destruct (blk b1) as [l0|] eqn:Q.
  - exists pre, (skipn (length d) rest). split; [|exact P]. unfold nl. rewrite map_app, <- !app_assoc. reflexivity.
  - exists [], []. symmetry in E. apply app_eq_nil in E. destruct E as [-> E]. apply app_eq_nil in E. destruct E as [Es Er].
    subst rest. destruct d; [|cbn in LR; lia]. destruct s; [|discriminate]. auto.
Qed.

(** histories *)
Inductive bop := Badd (d : list Z) | Bdrain (n : Z) | Bremove (n : Z) | Breserve (n : Z) | Bget.
Record spec := mkspec { str : list Z; consumed : Z; room : Z }.
(** the byte string and, on the side, what was drained since the last reallocation and the block's size *)
Definition grow (x : spec) (n : Z) : spec :=
  if (Z.of_nat (length (str x)) + n <=? room x - consumed x) then x
  else mkspec (str x) (consumed x) (Z.of_nat (length (str x)) + Z.max 1024 n).
Definition sstep (x : spec) (o : bop) : list Z * spec :=
  match o with
  | Badd d => ([], let y := grow x (Z.of_nat (length d)) in mkspec (str x ++ d) (consumed y) (room y))
  | Bdrain n => ([if n =? 0 then 0 else Z.of_nat (length (str x) - Z.to_nat n)],
       mkspec (skipn (Z.to_nat n) (str x)) (if n <? Z.of_nat (length (str x)) then consumed x + n else consumed x) (room x))
  | Bremove n => (firstn (Z.to_nat n) (str x),
       mkspec (skipn (Z.to_nat n) (str x)) (if n <? Z.of_nat (length (str x)) then consumed x + n else consumed x) (room x))
  | Breserve n => ([], grow x n)
  | Bget => (str x, x)
  end.
(** what a caller may do: anything, except growing past the block after a partial drain (and 2 GB) *)
Definition growable (x : spec) (n : Z) : Prop :=
  consumed x + Z.of_nat (length (str x)) + n <= room x \/ (consumed x = 0 /\ Z.of_nat (length (str x)) + Z.max 1024 n < 2 ^ 31).
Definition spre (x : spec) (o : bop) : Prop :=
  match o with
  | Badd d => growable x (Z.of_nat (length d))
  | Breserve n => 0 <= n /\ growable x n
  | Bdrain n | Bremove n => 0 <= n
  | Bget => True
  end.
Definition bstep (b : buf) (o : bop) : outcome (list Z * buf) :=
  match o with
  | Badd d => b' <- buf_add b d ;; Ok ([], b')
  | Bdrain n => let '(r, b') := buf_drain b n in Ok ([r], b')
  | Bremove n => ' (d, _, b') <- buf_remove b n ;; Ok (d, b')
  | Breserve n => b' <- buf_reserve b n ;; Ok ([], b')
  | Bget => d <- buf_get b ;; Ok (match d with Some d => d | None => [] end, b)
  end.
Definition represents (b : buf) (x : spec) := contains b (str x) /\ off b = consumed x /\ cap b = room x.

Lemma reserve_exact b x n : represents b x -> 0 <= n -> growable x n ->
  exists b', buf_reserve b n = Ok b' /\ represents b' (grow x n).
Proof.
  intros (H & H1 & H2) N G. destruct (unused_ok _ _ H) as (U1 & U2 & U3).
  assert (CG : can_grow b (str x) n) by (unfold can_grow; rewrite H1, H2; exact G).
  pose proof H as (_ & L & _).
  destruct (reserve_ok b (str x) n H N CG) as (b1 & R1 & R2 & R3 & R4 & R5 & R6). exists b1. split; [exact R1|].
  unfold grow. destruct (Z.of_nat (length (str x)) + n <=? room x - consumed x) eqn:Q.
  - unfold buf_reserve in R1. replace (n >? buf_unused b) with false in R1 by lia. assert (b1 = b) by congruence. subst. repeat split; auto; apply H.
  - destruct G as [G|[G1 G2]]; [lia|]. unfold buf_reserve in R1. rewrite U3 in R1 by lia.
    replace (n >? cap b - len b) with true in R1 by lia. unfold buf_expand in R1. cbv zeta in R1.
    destruct (realloc _ _) as [l0| | |] eqn:RA; try discriminate. cbn [obind] in R1.
    assert (X : b1 = mkbuf (len b) ((len b + (if n <? 1024 then 1024 else n)) mod W64) (Some l0) 0) by congruence.
    split; [exact R2|]. cbn [str consumed room]. split; [lia|].
    destruct R2 as (_ & _ & _ & _ & _ & M & _). rewrite <- M by lia. rewrite X. cbn [max]. rewrite L.
    rewrite Z.mod_small by (unfold W64; destruct (n <? 1024) eqn:Y; lia). destruct (n <? 1024) eqn:Y; lia.
Qed.
Lemma add_exact b x d : represents b x -> growable x (Z.of_nat (length d)) ->
  exists b', buf_add b d = Ok b' /\ represents b' (mkspec (str x ++ d) (consumed (grow x (Z.of_nat (length d)))) (room (grow x (Z.of_nat (length d))))).
Proof.
  intros H G. destruct (reserve_exact b x (Z.of_nat (length d)) H) as (b1 & R1 & R2); [lia|exact G|].
  assert (G1 : off b1 + Z.of_nat (length (str x)) + Z.of_nat (length d) <= cap b1).
  { destruct H as (H & H1 & H2). destruct (reserve_ok b (str x) (Z.of_nat (length d)) H) as (b2 & Q1 & Q2 & Q3 & _); [lia|unfold can_grow; rewrite H1, H2; exact G|].
    assert (b2 = b1) by congruence. now subst. }
  assert (S1 : str (grow x (Z.of_nat (length d))) = str x) by (unfold grow; destruct (_ <=? _); reflexivity).
  destruct R2 as (K & K1 & K2). rewrite S1 in K. destruct (add_ok b1 (str x) d K) as (b' & A1 & A2 & A3 & A4 & A5); [left; exact G1|].
  assert (NE : (Z.of_nat (length d) >? buf_unused b1) = false).
  { destruct (unused_ok _ _ K) as (U1 & U2 & _). destruct K as (_ & L & _). lia. }
  exists b'. split.
  - unfold buf_add in A1 |- *. unfold buf_reserve in R1. rewrite R1. cbn [obind]. rewrite NE in A1. cbn [obind] in A1. exact A1.
  - split; [exact A2|]. cbn [str consumed room]. split; [congruence|]. rewrite <- K2.
    unfold buf_add in A1. rewrite NE in A1. cbn [obind] in A1. destruct (wrn _ _ _) as [l0| | |] eqn:Wn; try discriminate. cbn [obind] in A1.
    assert (X : b' = mkbuf ((len b1 + Z.of_nat (length d)) mod W64) (max b1) (match blk b1 with Some _ => Some l0 | None => None end) (off b1)) by congruence.
    rewrite X. rewrite !cap_block. unfold block. cbn [blk].
    destruct (blk b1) as [l1|] eqn:Q; [|reflexivity].
    unfold block in Wn. rewrite Q in Wn. f_equal. clear -Wn. revert l1 Wn. generalize (Z.to_nat (off b1 + len b1)).
    induction d as [|v d IH]; intros k l1 Wn; cbn [wrn] in Wn; [congruence|].
    destruct (k <? length l1)%nat; [|discriminate]. apply IH in Wn. now rewrite upd_length in Wn.
Qed.
Lemma bstep_ok b x o : represents b x -> spre x o -> exists b', bstep b o = Ok (fst (sstep x o), b') /\ represents b' (snd (sstep x o)).
Proof.
  intros H P. destruct o as [d|n|n|n|]; cbn [bstep sstep fst snd spre] in *.
  - destruct (add_exact b x d H P) as (b' & E & H'). rewrite E. cbn [obind]. eauto.
  - destruct H as (H & H1 & H2). destruct (drain_ok b (str x) n H P) as (b' & E & D2 & D3 & D4). rewrite E. exists b'. split; [reflexivity|].
    split; [exact D2|]. cbn [consumed room]. rewrite D4, H1. split; [reflexivity|]. rewrite <- H2. unfold cap. now rewrite D3.
  - destruct H as (H & H1 & H2). destruct (remove_ok b (str x) n H P) as (b' & E & D2 & D3 & D4). rewrite E. cbn [obind]. exists b'. split; [reflexivity|].
    split; [exact D2|]. cbn [consumed room]. rewrite D4, H1. split; [reflexivity|]. rewrite <- H2. unfold cap. now rewrite D3.
  - destruct P as [P1 P2]. destruct (reserve_exact b x n H P1 P2) as (b' & E & H'). rewrite E. cbn [obind]. eauto.
  - pose proof H as (H0 & _). rewrite (get_ok b (str x) H0). cbn [obind]. exists b. split; [|exact H]. destruct (str x); reflexivity.
Qed.
Fixpoint brun (b : buf) (ops : list bop) : outcome (list (list Z) * buf) :=
  match ops with
  | [] => Ok ([], b)
  | o :: r => ' (x, b1) <- bstep b o ;; ' (y, b2) <- brun b1 r ;; Ok (x :: y, b2)
  end.
Fixpoint srun (x : spec) (ops : list bop) : list (list Z) * spec :=
  match ops with
  | [] => ([], x)
  | o :: r => let '(v, x1) := sstep x o in let '(w, x2) := srun x1 r in (v :: w, x2)
  end.
Fixpoint spre_run (x : spec) (ops : list bop) : Prop :=
  match ops with [] => True | o :: r => spre x o /\ spre_run (snd (sstep x o)) r end.
Lemma brun_ok : forall ops b x, represents b x -> spre_run x ops ->
  exists b', brun b ops = Ok (fst (srun x ops), b') /\ represents b' (snd (srun x ops)).
Proof.
  induction ops as [|o ops IH]; intros b x H P; cbn [brun srun].
  - exists b. auto.
  - destruct P as [P1 P2]. destruct (bstep_ok b x o H P1) as (b1 & E & H1). rewrite E. cbn [obind].
    destruct (sstep x o) as [v x1]. cbn [fst snd] in *. destruct (IH b1 x1 H1 P2) as (b2 & E2 & H2). rewrite E2. cbn [obind].
    destruct (srun x1 ops) as [w x2]. exists b2. auto.
Qed.

(** concatenation of buffers, scatter/gather *)
Lemma add_buf_ok a b s t : contains a s -> contains b t -> can_grow a s (Z.of_nat (length t)) ->
  exists a' b', buf_add_buf a b = Ok (a', b') /\ contains a' (s ++ t) /\ contains b' [].
Proof.
  intros Ha Hb G. unfold buf_add_buf. pose proof Hb as ((pre & rest & E & P) & L & O & _).
  rewrite E. replace (Z.to_nat (off b)) with (length pre) by lia. rewrite rdn_ok by lia. cbn [obind].
  rewrite L, Nat2Z.id, firstn_all. destruct (add_ok a s t Ha G) as (a' & A1 & A2 & _). rewrite A1. cbn [obind].
  destruct (drain_ok b t (Z.of_nat (length t)) Hb) as (b' & D1 & D2 & _); [lia|]. rewrite D1. cbn [snd]. exists a', b'. split; [reflexivity|].
  split; [exact A2|]. rewrite Nat2Z.id, skipn_all in D2. exact D2.
Qed.
Lemma iov_len_ok : forall (v : list (list Z)) n, 0 <= n -> n + Z.of_nat (length (concat v)) < W64 ->
  fold_left (fun n d => (n + Z.of_nat (length d)) mod W64) v n = n + Z.of_nat (length (concat v)).
Proof.
  induction v as [|d v IH]; intros n N B; cbn [fold_left concat] in *; [cbn; lia|].
  rewrite app_length in B. rewrite Z.mod_small by lia. rewrite IH by lia. rewrite app_length. lia.
Qed.
Lemma iov_loop_ok : forall v b s, contains b s -> off b + Z.of_nat (length s) + Z.of_nat (length (concat v)) <= cap b ->
  exists b', iov_loop b v = Ok b' /\ contains b' (s ++ concat v).
Proof.
  induction v as [|d v IH]; intros b s H B; cbn [iov_loop concat] in *.
  - exists b. rewrite app_nil_r. auto.
  - rewrite app_length in B. destruct (add_ok b s d H) as (b1 & A1 & A2 & A3 & A4 & A5); [left; lia|]. rewrite A1. cbn [obind].
    destruct (IH b1 (s ++ d) A2) as (b' & E & H'); [rewrite app_length; lia|]. exists b'. rewrite app_assoc. auto.
Qed.
Lemma iov_add_ok b s v : contains b s -> can_grow b s (Z.of_nat (length (concat v))) ->
  exists b', buf_iov_add b v = Ok b' /\ contains b' (s ++ concat v).
Proof.
  intros H G. unfold buf_iov_add, iov_len. rewrite iov_len_ok; [|lia|].
  - destruct (reserve_ok b s (Z.of_nat (length (concat v))) H) as (b1 & R1 & R2 & R3 & _); [lia|exact G|].
    rewrite Z.add_0_l. rewrite R1. cbn [obind]. apply iov_loop_ok; auto.
  - destruct H as (_ & _ & O & _ & _ & _ & C). unfold W64. destruct G; lia.
Qed.
