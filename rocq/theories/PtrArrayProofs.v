From Verif Require Import Prelude PtrArrayModel.
From Coq Require Import Permutation.
Open Scope Z_scope.

(** [holds a l]: the array is well formed and its members are l, none of them NULL. *)
Definition holds (a : parr) (l : list Z) : Prop :=
  (exists rest, slots a = map Some l ++ rest) /\ count a = Z.of_nat (length l) /\ size a = Z.of_nat (length (slots a)) /\
  0 < size a <= I32MAX /\ ~ In 0 l.

Lemma holds_le a l : holds a l -> count a <= size a.
Proof. intros ((r & E) & C & S & _). rewrite S, E, app_length, map_length. lia. Qed.

Lemma rd_ok a l i : holds a l -> 0 <= i < Z.of_nat (length l) -> rd a i = Ok (nth (Z.to_nat i) l 0).
Proof.
  intros ((r & E) & C & S & _) H. unfold rd. rewrite E, app_length, map_length.
  replace ((0 <=? i) && (i <? Z.of_nat (length l + length r))) with true by lia.
  rewrite nth_error_app1 by (rewrite map_length; lia). rewrite nth_error_map.
  rewrite (nth_error_nth' l 0) by lia. reflexivity.
Qed.

Lemma init_ok c : holds (pa_init c) [].
Proof. split; [exists (repeat None 32); reflexivity|]. split; [reflexivity|]. split; [reflexivity|].
  split; [unfold pa_init, I32MAX, DEFAULT_SIZE; cbn [size]; lia|auto]. Qed.

Lemma copy_loop_ok : forall n a l i pre dst, holds a l -> Z.of_nat n = Z.of_nat (length l) - i -> 0 <= i ->
  length pre = Z.to_nat i -> (n <= length dst)%nat ->
  copy_loop n a i (pre ++ dst) = Ok (pre ++ map Some (skipn (Z.to_nat i) l) ++ skipn n dst).
Proof.
  induction n as [|n IH]; intros a l i pre dst H N I P D; cbn [copy_loop].
  - rewrite skipn_all2 by lia. reflexivity.
  - rewrite (rd_ok a l i H) by lia. cbn [obind]. rewrite app_length.
    replace ((0 <=? i) && (i <? Z.of_nat (length pre + length dst))) with true by lia. cbn [safe obind].
    rewrite upd_app_r by lia. rewrite P, Nat.sub_diag. destruct dst as [|d dst]; [cbn in D; lia|]. cbn [upd].
    replace (pre ++ Some (nth (Z.to_nat i) l 0) :: dst) with ((pre ++ [Some (nth (Z.to_nat i) l 0)]) ++ dst) by now rewrite <- app_assoc.
    rewrite (IH a l); auto; try lia.
    + rewrite <- app_assoc. f_equal. f_equal. cbn [skipn app].
      assert (X : skipn (Z.to_nat i) l = nth (Z.to_nat i) l 0 :: skipn (Z.to_nat (i + 1)) l).
      { replace (Z.to_nat (i + 1)) with (S (Z.to_nat i)) by lia.
        assert (L : (Z.to_nat i < length l)%nat) by lia. clear -L. revert l L. generalize (Z.to_nat i) as k.
        induction k as [|k IHk]; intros [|x l] L; cbn [length skipn nth] in *; try lia; [reflexivity|]. apply IHk. lia. }
      rewrite X. reflexivity.
    + rewrite app_length, P. cbn [length]. lia.
    + cbn [length] in D. lia.
Qed.
Lemma copy_data_ok a l dst : holds a l -> (length l <= length dst)%nat ->
  pa_copy_data a dst = Ok (map Some l ++ skipn (length l) dst).
Proof.
  intros H D. unfold pa_copy_data. pose proof H as (_ & C & _). rewrite C, Nat2Z.id.
  pose proof (copy_loop_ok (length l) a l 0 [] dst H) as X. cbn [app skipn Z.to_nat] in X. apply X; auto; lia.
Qed.
Lemma resize_ok a l e : holds a l -> 0 <= e -> size a + (if e =? 0 then 32 else e) <= I32MAX ->
  exists a', pa_resize a e = Ok (0, a') /\ holds a' l /\ size a' = size a + (if e =? 0 then 32 else e) /\ cb a' = cb a.
Proof.
  intros H E S. unfold pa_resize, DEFAULT_SIZE. cbv zeta. set (k := if e =? 0 then 32 else e) in *.
  assert (K : 0 < k) by (subst k; destruct (Z.eqb_spec e 0); lia).
  replace (size a + k <=? I32MAX) with true by lia. cbn [safe obind]. replace (size a + k <? size a) with false by lia.
  pose proof (holds_le _ _ H) as HL. pose proof H as (_ & C & Sz & B & NZ).
  rewrite (copy_data_ok a l) by (auto; rewrite repeat_length; lia). cbn [obind]. eexists. split; [reflexivity|]. split; [|split; reflexivity].
  split; [eexists; reflexivity|]. cbn [count size slots]. repeat split; auto; try lia.
  rewrite app_length, map_length, skipn_length, repeat_length. lia.
Qed.
Lemma resize_negative a e : e < 0 -> size a + e <= I32MAX -> pa_resize a e = Ok (-1, a).
Proof.
  intros E S. unfold pa_resize. replace (e =? 0) with false by lia. cbv zeta.
  replace (size a + e <=? I32MAX) with true by lia. cbn [safe obind]. now replace (size a + e <? size a) with true by lia.
Qed.

Lemma add_ok a l d : holds a l -> d <> 0 -> Z.of_nat (length l) + 32 <= I32MAX ->
  exists a', pa_add a d = Ok (0, a') /\ holds a' (l ++ [d]) /\ cb a' = cb a.
Proof.
  intros H D L. unfold pa_add. replace (d =? 0) with false by lia. pose proof H as (_ & C & _).
  assert (X : exists a1, (if count a >=? size a then pa_resize a 0 else Ok (0, a)) = Ok (0, a1) /\ holds a1 l /\ count a1 < size a1 /\ cb a1 = cb a).
  { destruct (count a >=? size a) eqn:G.
    - destruct (resize_ok a l 0 H) as (a1 & R1 & R2 & R3 & R4); [lia| |].
      + pose proof (holds_le _ _ H). cbn. lia.
      + exists a1. repeat split; auto; try apply R2. pose proof (holds_le _ _ H). destruct R2 as (_ & C1 & _). rewrite C1, R3. cbn. lia.
    - exists a. repeat split; auto; try apply H. lia. }
  destruct X as (a1 & -> & H1 & F & Q). cbn [obind]. replace (0 <? 0) with false by lia. unfold wr.
  destruct H1 as ((r & E1) & C1 & S1 & B1 & N1). rewrite <- S1.
  replace ((0 <=? count a1) && (count a1 <? size a1)) with true by lia. cbn [obind]. eexists. split; [reflexivity|]. split; [|exact Q].
  rewrite E1, C1, Nat2Z.id. rewrite upd_app_r by (rewrite map_length; lia). rewrite map_length, Nat.sub_diag.
  destruct r as [|r0 r]; [rewrite E1, app_nil_r, map_length in S1; lia|]. cbn [upd].
  split; [exists r; cbn [slots]; rewrite map_app, <- app_assoc; reflexivity|]. cbn [count size slots].
  rewrite E1 in S1. rewrite !app_length in *. cbn [length] in *. repeat split; try lia.
  rewrite in_app_iff. cbn. intuition lia.
Qed.
Lemma add_null a : pa_add a 0 = Ok (0, a).
Proof. reflexivity. Qed.

Lemma get_ok a l i : holds a l -> 0 <= i -> pa_get a i = Ok (nth (Z.to_nat i) l 0).
Proof.
  intros H I. unfold pa_get. replace (i =? -1) with false by lia. pose proof H as (_ & C & _).
  destruct (i >=? count a) eqn:G.
  - rewrite nth_overflow by lia. reflexivity.
  - apply rd_ok; auto. lia.
Qed.
Lemma get_last a l : holds a l -> l <> [] -> pa_get a (-1) = Ok (last l 0).
Proof.
  intros H NE. unfold pa_get. cbn [Z.eqb]. change (-1 =? -1) with true. cbv iota. pose proof H as (_ & C & _).
  assert (length l <> 0%nat) by (destruct l; cbn; congruence).
  rewrite (rd_ok a l) by (auto; lia). f_equal. rewrite C. destruct (exists_last NE) as (l' & x & ->).
  rewrite last_last, app_length. cbn [length]. replace (Z.to_nat (Z.of_nat (length l' + 1) - 1)) with (length l') by lia.
  rewrite app_nth2, Nat.sub_diag by lia. reflexivity.
Qed.

(** delete by value, value present at most once *)
Lemma del_loop_none : forall fuel a l d i, holds a l -> 0 <= i -> ~ In d (skipn (Z.to_nat i) l) ->
  (0 < fuel)%nat -> (length l < fuel + Z.to_nat i)%nat -> del_loop fuel a d i = Ok (a, []).
Proof.
  induction fuel as [|f IH]; intros a l d i H I N F0 F; cbn [del_loop];
    pose proof H as (_ & C & _).
  - (* no fuel: then i is beyond the end *)
    exfalso. lia.
  - destruct (i <? count a) eqn:G; [|reflexivity].
    rewrite (rd_ok a l i H) by lia. cbn [obind].
    assert (X : skipn (Z.to_nat i) l = nth (Z.to_nat i) l 0 :: skipn (Z.to_nat (i + 1)) l).
    { replace (Z.to_nat (i + 1)) with (S (Z.to_nat i)) by lia.
      assert (L : (Z.to_nat i < length l)%nat) by lia. clear -L. revert l L. generalize (Z.to_nat i) as k.
      induction k as [|k IHk]; intros [|x l] L; cbn [length skipn nth] in *; try lia; [reflexivity|]. apply IHk. lia. }
    rewrite X in N. cbn in N. destruct (Z.eqb_spec (nth (Z.to_nat i) l 0) d); [tauto|].
    apply (IH a l); auto; lia.
Qed.

(** move the last member into the hole *)
Definition fill (l1 l2 : list Z) : list Z := match l2 with [] => l1 | _ => l1 ++ last l2 0 :: removelast l2 end.
Lemma fill_perm l1 l2 : Permutation (fill l1 l2) (l1 ++ l2).
Proof.
  unfold fill. destruct l2 as [|x l2]; [now rewrite app_nil_r|]. apply Permutation_app_head.
  destruct (exists_last (l := x :: l2)) as (b & y & E); [discriminate|]. rewrite E, last_last, removelast_last.
  apply Permutation_cons_append.
Qed.

Lemma del_loop_once : forall fuel a l1 d l2 i, holds a (l1 ++ d :: l2) -> 0 <= i <= Z.of_nat (length l1) -> ~ In d l1 -> ~ In d l2 ->
  (length (l1 ++ d :: l2) < fuel + Z.to_nat i)%nat ->
  exists a', del_loop fuel a d i = Ok (a', if cb a then [d] else []) /\ holds a' (fill l1 l2) /\ cb a' = cb a.
Proof.
  induction fuel as [|f IH]; intros a l1 d l2 i H I N1 N2 F.
  { exfalso. rewrite app_length in F. cbn [length] in F. lia. }
  cbn [del_loop]. pose proof H as ((r & E) & C & S & B & NZ). rewrite app_length in *. cbn [length] in *.
  replace (i <? count a) with true by lia. rewrite (rd_ok a _ i H) by (rewrite app_length; cbn [length]; lia). cbn [obind].
  destruct (Z.eq_dec i (Z.of_nat (length l1))) as [->|Ni].
  - rewrite Nat2Z.id, app_nth2, Nat.sub_diag by lia. cbn [nth]. rewrite Z.eqb_refl.
    unfold pa_move. replace (count a - 1 >? count a) with false by lia.
    replace (Z.of_nat (length l1) >? count a) with false by lia.
    rewrite (rd_ok a _ _ H) by (rewrite app_length; cbn [length]; lia). cbn [obind].
    set (v := nth (Z.to_nat (count a - 1)) (l1 ++ d :: l2) 0).
    assert (V : v = last (d :: l2) 0).
    { subst v. destruct (exists_last (l := d :: l2)) as (b & y & Eb); [discriminate|]. rewrite Eb, last_last.
      assert (length (d :: l2) = length (b ++ [y])) by now rewrite Eb. rewrite app_length in H0. cbn [length] in H0.
      rewrite app_assoc. rewrite C. replace (Z.to_nat (Z.of_nat (length l1 + Datatypes.S (length l2)) - 1)) with (length (l1 ++ b)).
      2: { rewrite app_length. lia. }
      rewrite app_nth2, Nat.sub_diag by lia. reflexivity. }
    unfold wr. rewrite <- S. pose proof (holds_le _ _ H) as HL.
    replace ((0 <=? Z.of_nat (length l1)) && (Z.of_nat (length l1) <? size a)) with true by lia. cbn [obind size count slots cb].
    set (a2 := mkparr _ _ _ _).
    assert (H2 : holds a2 (fill l1 l2)).
    { subst a2. unfold holds. cbn [slots size count]. rewrite upd_length. split; [|split; [|split; [exact S|split; [exact B|]]]].
      - rewrite Nat2Z.id, E, map_app, <- app_assoc. rewrite upd_app_r by (rewrite map_length; lia).
        rewrite map_length, Nat.sub_diag. cbn [map app upd]. unfold fill.
        destruct l2 as [|x l2]; [cbn [map app]; eauto|].
        destruct (exists_last (l := x :: l2)) as (b & y & Eb); [discriminate|]. rewrite V. rewrite Eb.
        replace (last (d :: b ++ [y]) 0) with y by (rewrite app_comm_cons, last_last; reflexivity).
        rewrite last_last, removelast_last. exists (Some y :: r). rewrite !map_app. cbn [map]. rewrite <- !app_assoc. reflexivity.
      - rewrite (Permutation_length (fill_perm l1 l2)), app_length. lia.
      - intros X. apply (Permutation_in _ (fill_perm l1 l2)) in X. apply NZ. rewrite in_app_iff in *. cbn. tauto. }
    rewrite (del_loop_none f a2 (fill l1 l2)); auto.
    + cbn [obind]. exists a2. auto.
    + lia.
    + intros X. assert (Y : In d (fill l1 l2)).
      { revert X. generalize (fill l1 l2). intros q. generalize (Z.to_nat (Z.of_nat (length l1) + 1)).
        intros k. revert q. induction k as [|k IHk]; intros [|x q]; cbn; auto. }
      apply (Permutation_in _ (fill_perm l1 l2)) in Y. rewrite in_app_iff in Y. tauto.
    + lia.
    + rewrite (Permutation_length (fill_perm l1 l2)), app_length. lia.
  - rewrite app_nth1 by lia. destruct (Z.eqb_spec (nth (Z.to_nat i) l1 0) d) as [X|X].
    { exfalso. apply N1. rewrite <- X. apply nth_In. lia. }
    apply IH; auto; try lia. rewrite app_length. cbn [length]. lia.
Qed.
Lemma del_ok a l1 d l2 fuel : holds a (l1 ++ d :: l2) -> ~ In d l1 -> ~ In d l2 -> (length (l1 ++ d :: l2) < fuel)%nat ->
  exists a', pa_del fuel a d = Ok (-1, a', if cb a then [d] else []) /\ holds a' (fill l1 l2) /\ cb a' = cb a.
Proof.
  intros H N1 N2 F. assert (d <> 0). { intros ->. destruct H as (_ & _ & _ & _ & NZ). apply NZ. apply in_app_iff. right. now left. }
  unfold pa_del. replace (d =? 0) with false by lia.
  destruct (del_loop_once fuel a l1 d l2 0 H) as (a' & E & H'); auto; try lia. rewrite E. cbn [obind]. eauto.
Qed.
Lemma del_absent a l d fuel : holds a l -> ~ In d l -> (length l < fuel)%nat -> pa_del fuel a d = Ok (-1, a, []).
Proof.
  intros H N F. unfold pa_del. destruct (d =? 0); [reflexivity|]. rewrite (del_loop_none fuel a l); auto; try lia. 
Qed.

(** cat *)
Lemma cat_ok : forall fuel dst src l1 l2 i, holds dst (l1 ++ firstn (Z.to_nat i) l2) -> holds src l2 -> 0 <= i <= Z.of_nat (length l2) ->
  (length l2 < fuel + Z.to_nat i)%nat -> Z.of_nat (length l1 + length l2) + 32 <= I32MAX ->
  exists d', cat_loop fuel dst src i = Ok (0, d') /\ holds d' (l1 ++ l2).
Proof.
  induction fuel as [|f IH]; intros dst src l1 l2 i H1 H2 I F B; [exfalso; lia|]. cbn [cat_loop].
  pose proof H2 as (_ & C & _ & _ & NZ). destruct (i <? count src) eqn:G.
  - rewrite (get_ok src l2) by (auto; lia). cbn [obind]. set (v := nth (Z.to_nat i) l2 0).
    assert (V : v <> 0). { intros E. apply NZ. rewrite <- E. apply nth_In. lia. }
    destruct (add_ok dst _ v H1 V) as (d' & A1 & A2 & _).
    { rewrite app_length, firstn_length. lia. }
    rewrite A1. cbn [obind]. change (negb (0 =? 0)) with false. cbv iota. apply IH; auto; try lia.
    replace (Z.to_nat (i + 1)) with (S (Z.to_nat i)) by lia. rewrite <- app_assoc in A2.
    replace (firstn (S (Z.to_nat i)) l2) with (firstn (Z.to_nat i) l2 ++ [v]); [exact A2|].
    assert (L : (Z.to_nat i < length l2)%nat) by lia. subst v. clear -L. revert l2 L. generalize (Z.to_nat i) as k.
    induction k as [|k IHk]; intros [|x l] L; cbn [length firstn nth app] in *; try lia; [reflexivity|]. f_equal. apply IHk. lia.
  - exists dst. split; [reflexivity|]. rewrite firstn_all2 in H1 by lia. exact H1.
Qed.
(** cat with itself runs for ever *)
Lemma cat_self_loops : forall fuel a l i, holds a l -> 0 <= i < Z.of_nat (length l) ->
  Z.of_nat (length l) + Z.of_nat fuel + 32 <= I32MAX -> cat_self_loop fuel a i = Loop.
Proof.
  induction fuel as [|f IH]; intros a l i H I B; [reflexivity|]. cbn [cat_self_loop].
  pose proof H as (_ & C & _ & _ & NZ). replace (i <? count a) with true by lia.
  rewrite (get_ok a l) by (auto; lia). cbn [obind]. set (v := nth (Z.to_nat i) l 0).
  assert (V : v <> 0). { intros E. apply NZ. rewrite <- E. apply nth_In. lia. }
  destruct (add_ok a _ v H V) as (d' & A1 & A2 & _); [lia|]. rewrite A1. cbn [obind]. change (negb (0 =? 0)) with false. cbv iota.
  apply (IH d' (l ++ [v])); auto; rewrite app_length; cbn [length]; lia.
Qed.

(** free: every member exactly once, in order *)
Lemma free_loop_ok : forall n a l i, holds a l -> 0 <= i -> Z.of_nat n = Z.of_nat (length l) - i ->
  free_loop n a i = Ok (skipn (Z.to_nat i) l).
Proof.
  induction n as [|n IH]; intros a l i H I N; cbn [free_loop].
  - rewrite skipn_all2 by lia. reflexivity.
  - rewrite (rd_ok a l) by (auto; lia). cbn [obind]. rewrite (IH a l) by (auto; lia). cbn [obind].
    assert (V : nth (Z.to_nat i) l 0 <> 0). { intros E. destruct H as (_ & _ & _ & _ & NZ). apply NZ. rewrite <- E. apply nth_In. lia. }
    apply Z.eqb_neq in V. rewrite V. f_equal. replace (Z.to_nat (i + 1)) with (S (Z.to_nat i)) by lia.
    assert (L : (Z.to_nat i < length l)%nat) by lia. clear -L. revert l L. generalize (Z.to_nat i) as k.
    induction k as [|k IHk]; intros [|x l] L; cbn [length skipn nth] in *; try lia; [reflexivity|]. apply IHk. lia.
Qed.
Lemma free_ok a l k : holds a l -> pa_free a k = Ok (if k >? 0 then l else []).
Proof.
  intros H. unfold pa_free. destruct (k >? 0); [|reflexivity]. pose proof H as (_ & C & _). rewrite C, Nat2Z.id.
  rewrite (free_loop_ok _ a l 0 H); auto; lia.
Qed.

(** move *)
Lemma move_ok a l s d : holds a l -> 0 <= s < Z.of_nat (length l) -> 0 <= d < Z.of_nat (length l) ->
  exists a', pa_move a s d = Ok (0, a') /\ holds a' (upd l (Z.to_nat d) (nth (Z.to_nat s) l 0)).
Proof.
  intros H Hs Hd. pose proof H as ((r & E) & C & S & B & NZ). unfold pa_move.
  replace (s >? count a) with false by lia. replace (d >? count a) with false by lia.
  rewrite (rd_ok a l s H Hs). cbn [obind]. unfold wr. pose proof (holds_le _ _ H) as HL.
  rewrite <- S. replace ((0 <=? d) && (d <? size a)) with true by lia. cbn [obind]. eexists. split; [reflexivity|].
  unfold holds. cbn [slots count size]. rewrite !upd_length. split; [|repeat split; auto; try lia].
  - exists r. rewrite E. rewrite upd_app_l by (rewrite map_length; lia). f_equal.
    assert (L : (Z.to_nat d < length l)%nat) by lia. clear -L. generalize (nth (Z.to_nat s) l 0). intros v. revert l L.
    generalize (Z.to_nat d) as k. induction k as [|k IHk]; intros [|x l] L; cbn [length map upd] in *; try lia; [reflexivity|].
    f_equal. apply IHk. lia.
  - intros X. apply In_nth_error in X. destruct X as (k & X). rewrite upd_nth_error in X.
    destruct (Nat.eqb k (Z.to_nat d)).
    + destruct (Nat.ltb (Z.to_nat d) (length l)); [|discriminate]. apply NZ. assert (nth (Z.to_nat s) l 0 = 0) by congruence. rewrite <- H0.
      apply nth_In. lia.
    + apply NZ. eapply nth_error_In; eauto.
Qed.

(** operation sequences against an abstract list *)
Inductive aop := Add (d : Z) | Del (d : Z) | Get (i : Z) | Move (s d : Z).
(** position of the first occurrence, split there *)
Fixpoint split_at (d : Z) (l : list Z) : option (list Z * list Z) :=
  match l with
  | [] => None
  | x :: r => if x =? d then Some ([], r) else match split_at d r with Some (a, b) => Some (x :: a, b) | None => None end
  end.
Definition spec_step (l : list Z) (o : aop) : list Z * list Z :=
  match o with
  | Add d => ([0], if d =? 0 then l else l ++ [d])
  | Del d => ([-1], match split_at d l with Some (a, b) => fill a b | None => l end)
  | Get i => ([nth (Z.to_nat i) l 0], l)
  | Move s d => ([0], upd l (Z.to_nat d) (nth (Z.to_nat s) l 0))
  end.
Definition step (a : parr) (o : aop) : outcome (list Z * parr) :=
  match o with
  | Add d => ' (r, a') <- pa_add a d ;; Ok ([r], a')
  | Del d => ' (r, a', _) <- pa_del (S (Z.to_nat (count a))) a d ;; Ok ([r], a')
  | Get i => v <- pa_get a i ;; Ok ([v], a)
  | Move s d => ' (r, a') <- pa_move a s d ;; Ok ([r], a')
  end.
(** preconditions on the caller, in terms of the abstract list: deleted values are not duplicated, indices are in range,
    int32 sizes do not overflow.  (Resize is separate: it changes no member, resize_ok.) *)
Definition pre (l : list Z) (o : aop) : Prop :=
  match o with
  | Add d => Z.of_nat (length l) + 32 <= I32MAX
  | Del d => (count_occ Z.eq_dec l d <= 1)%nat
  | Get i => 0 <= i
  | Move s d => 0 <= s < Z.of_nat (length l) /\ 0 <= d < Z.of_nat (length l)
  end.
Lemma split_at_spec d : forall l, match split_at d l with
  | Some (a, b) => l = a ++ d :: b /\ ~ In d a | None => ~ In d l end.
Proof.
  induction l as [|x l IH]; cbn; [auto|]. destruct (Z.eqb_spec x d).
  - subst. split; auto.
  - destruct (split_at d l) as [[a b]|].
    + destruct IH as [-> N]. split; [reflexivity|]. cbn. intuition congruence.
    + intuition congruence.
Qed.
Lemma step_ok a l o : holds a l -> pre l o -> exists r a', step a o = Ok (r, a') /\ holds a' (snd (spec_step l o)) /\ r = fst (spec_step l o).
Proof.
  intros H P. destruct o as [d|d|i|s d]; cbn [step spec_step fst snd] in *.
  - destruct (Z.eqb_spec d 0).
    + subst. rewrite add_null. cbn [obind]. eauto.
    + destruct (add_ok a l d H n P) as (a' & E & H' & _). rewrite E. cbn [obind]. eauto.
  - pose proof H as (_ & C & _). rewrite C, Nat2Z.id. pose proof (split_at_spec d l) as X. cbn in P. destruct (split_at d l) as [[x y]|].
    + destruct X as [-> N1]. assert (N2 : ~ In d y).
      { rewrite count_occ_app in P. cbn in P. destruct (Z.eq_dec d d); [|congruence]. apply (count_occ_not_In Z.eq_dec). lia. }
      destruct (del_ok a x d y (S (length (x ++ d :: y))) H N1 N2) as (a' & E & H' & _); [lia|]. rewrite E. cbn [obind]. eauto.
    + rewrite (del_absent a l d); auto. cbn [obind]. eauto.
  - rewrite (get_ok a l i H P). cbn [obind]. eauto.
  - destruct P as [P1 P2]. destruct (move_ok a l s d H P1 P2) as (a' & E & H'). rewrite E. cbn [obind]. eauto.
Qed.
Fixpoint run (a : parr) (ops : list aop) : outcome (list Z * parr) :=
  match ops with
  | [] => Ok ([], a)
  | o :: r => ' (x, a1) <- step a o ;; ' (y, a2) <- run a1 r ;; Ok (x ++ y, a2)
  end.
Fixpoint spec_run (l : list Z) (ops : list aop) : list Z * list Z :=
  match ops with
  | [] => ([], l)
  | o :: r => let '(x, l1) := spec_step l o in let '(y, l2) := spec_run l1 r in (x ++ y, l2)
  end.
Fixpoint pre_run (l : list Z) (ops : list aop) : Prop :=
  match ops with [] => True | o :: r => pre l o /\ pre_run (snd (spec_step l o)) r end.
Lemma run_ok : forall ops a l, holds a l -> pre_run l ops ->
  exists a', run a ops = Ok (fst (spec_run l ops), a') /\ holds a' (snd (spec_run l ops)).
Proof.
  induction ops as [|o ops IH]; intros a l H P; cbn [run spec_run].
  - exists a. auto.
  - destruct P as [P1 P2]. destruct (step_ok a l o H P1) as (r & a1 & E & H1 & ->). rewrite E. cbn [obind].
    destruct (spec_step l o) as [x l1]. cbn [fst snd] in *. destruct (IH a1 l1 H1 P2) as (a2 & E2 & H2). rewrite E2. cbn [obind].
    destruct (spec_run l1 ops) as [y l2]. exists a2. auto.
Qed.
