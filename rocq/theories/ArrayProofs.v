From Verif Require Import Prelude Blocks ArrayModel.
Open Scope Z_scope.

(** [elems a es]: the array's elements are es, each of [asize a] bytes. *)
Definition elems (a : arr) (es : list (list Z)) : Prop :=
  alen a = Z.of_nat (length es) /\ 0 < asize a /\ alen a * asize a < W64 /\
  Forall (fun e => Z.of_nat (length e) = asize a) es /\ ablock a = map Some (concat es) /\ (adata a = None -> es = []).

Lemma concat_len (es : list (list Z)) k : Forall (fun e => Z.of_nat (length e) = k) es -> Z.of_nat (length (concat es)) = Z.of_nat (length es) * k.
Proof. induction 1 as [|e es H F IH]; [reflexivity|]. cbn [concat length]. rewrite app_length. lia. Qed.
Lemma zeros_concat n k : 0 <= n -> 0 <= k -> zeros (n * k) = map Some (concat (repeat (repeat 0 (Z.to_nat k)) (Z.to_nat n))).
Proof.
  intros Hn Hk. unfold zeros. rewrite Z2Nat.inj_mul by lia. generalize (Z.to_nat n) as m. generalize (Z.to_nat k) as q. intros q m.
  induction m as [|m IH]; [reflexivity|]. cbn [Nat.mul repeat concat]. rewrite map_app, <- IH, repeat_app. f_equal.
  clear. induction q; cbn; congruence.
Qed.
Lemma Forall_repeat {A} (P : A -> Prop) x n : P x -> Forall P (repeat x n).
Proof. intros H. induction n; cbn; constructor; auto. Qed.

Lemma new_ok len size : 0 <= len -> 0 < size -> len * size < W64 ->
  exists a, array_new len size = Ok a /\ elems a (repeat (repeat 0 (Z.to_nat size)) (Z.to_nat len)) /\ asize a = size.
Proof.
  intros L S B. unfold array_new, arrayrep_init. replace (size >? 0) with true by lia. destruct (len >? 0) eqn:G.
  - rewrite ?G. cbn [guard obind]. eexists. split; [reflexivity|]. split; [|reflexivity]. unfold elems. cbn [alen asize adata ablock].
    rewrite repeat_length. repeat split; try lia; try discriminate.
    + apply Forall_repeat. rewrite repeat_length. lia.
    + rewrite Z.mod_small by nia. apply zeros_concat; lia.
  - assert (len = 0) by lia. subst. cbn. eexists. split; [reflexivity|]. split; [|reflexivity]. unfold elems. cbn. repeat split; try lia. constructor.
Qed.

Lemma concat_split {A} (l1 : list (list A)) x l2 : concat (l1 ++ x :: l2) = concat l1 ++ x ++ concat l2.
Proof. now rewrite concat_app. Qed.

Lemma elems_at a l1 e l2 : elems a (l1 ++ e :: l2) ->
  (Z.of_nat (length l1) * asize a) mod W64 = Z.of_nat (length (concat l1)) /\ Z.of_nat (length e) = asize a /\
  0 <= Z.of_nat (length l1) < alen a.
Proof.
  intros (H1 & H2 & H3 & H4 & H5 & _). apply Forall_app in H4. destruct H4 as [F1 F2]. inversion F2; subst.
  rewrite (concat_len l1 (asize a) F1). rewrite app_length in H1. cbn [length] in H1. rewrite Z.mod_small by nia. repeat split; auto; lia.
Qed.

Lemma get_ok a l1 e l2 : elems a (l1 ++ e :: l2) -> array_elem_copy a (Z.of_nat (length l1)) = Ok e.
Proof.
  intros H. destruct (elems_at a l1 e l2 H) as (E1 & E2 & E3). destruct H as (_ & _ & _ & _ & B & _).
  unfold array_elem_copy. replace (Z.of_nat (length l1) <? alen a) with true by lia. cbn [guard obind]. rewrite E1, Nat2Z.id, B, concat_split.
  rewrite !map_app. rewrite <- (map_length Some (concat l1)). rewrite rdn_ok by lia. rewrite <- E2, Nat2Z.id, firstn_all. reflexivity.
Qed.
Lemma get_range a es i : elems a es -> Z.of_nat (length es) <= i -> array_elem_copy a i = Abort /\ array_get a i = Abort /\ forall e, array_put a i e = Abort.
Proof.
  intros (H1 & _) L. unfold array_elem_copy, array_get, array_put. replace (i <? alen a) with false by lia. auto.
Qed.
Lemma put_ok a l1 e l2 v : elems a (l1 ++ e :: l2) -> Z.of_nat (length v) = asize a ->
  exists a', array_put a (Z.of_nat (length l1)) v = Ok a' /\ elems a' (l1 ++ v :: l2) /\ asize a' = asize a.
Proof.
  intros H V. destruct (elems_at a l1 e l2 H) as (E1 & E2 & E3). pose proof H as (H1 & H2 & H3 & H4 & B & N).
  unfold array_put. replace (Z.of_nat (length l1) <? alen a) with true by lia. cbn [guard obind].
  rewrite <- V, Nat2Z.id. replace (map Some v) with (@nil (option Z) ++ map Some v ++ []) by now rewrite app_nil_r.
  change (rdn ([] ++ map Some v ++ []) 0 (length v)) with (rdn ([] ++ map Some v ++ []) (@length (option Z) []) (length v)).
  rewrite rdn_ok, firstn_all by lia. cbn [obind]. rewrite V, E1, Nat2Z.id, B, concat_split, !map_app.
  rewrite <- (map_length Some (concat l1)). rewrite wrn_ok by (rewrite app_length, map_length; lia). cbn [obind].
  eexists. split; [reflexivity|]. split; [|reflexivity].
  destruct (adata a) eqn:Q; [|exfalso; specialize (N eq_refl); destruct l1; discriminate].
  unfold elems, ablock. cbn [alen asize adata]. rewrite app_length in *. cbn [length] in *. repeat split; try lia; try discriminate.
  - apply Forall_app in H4. destruct H4 as [F1 F2]. inversion F2; subst. apply Forall_app. split; [exact F1|]. constructor; auto.
  - rewrite concat_split, !map_app. f_equal. f_equal. rewrite skipn_app, skipn_all2 by (rewrite map_length; lia).
    rewrite map_length. replace (length v - length e)%nat with 0%nat by lia. reflexivity.
Qed.

Lemma firstn_concat (es : list (list Z)) k n : Forall (fun e => Z.of_nat (length e) = k) es -> 0 <= n -> 0 <= k ->
  firstn (Z.to_nat (n * k)) (concat es) = concat (firstn (Z.to_nat n) es).
Proof.
  intros F N K. rewrite Z2Nat.inj_mul by lia. generalize (Z.to_nat n) as m. clear N n. induction F as [|e es H F IH]; intros m.
  - cbn [concat]. rewrite !firstn_nil. reflexivity.
  - destruct m as [|m]; [reflexivity|]. cbn [Nat.mul firstn concat]. rewrite firstn_app.
    rewrite firstn_all2 by lia. f_equal. replace (Z.to_nat k + m * Z.to_nat k - length e)%nat with (m * Z.to_nat k)%nat by lia. apply IH.
Qed.

Lemma resize_ok a es n : elems a es -> 0 < n -> n * asize a < W64 ->
  exists a', array_resize a n = Ok a' /\
    elems a' (firstn (Z.to_nat n) es ++ repeat (repeat 0 (Z.to_nat (asize a))) (Z.to_nat n - length es)) /\ asize a' = asize a.
Proof.
  intros H N B. pose proof H as (H1 & H2 & H3 & H4 & Bk & Nn). unfold array_resize. replace (n >? 0) with true by lia. cbn [guard obind].
  cbv zeta. rewrite (Z.mod_small (n * asize a)) by nia.
  assert (FR : Forall (fun e => Z.of_nat (length e) = asize a) (repeat (repeat 0 (Z.to_nat (asize a))) (Z.to_nat n - length es))).
  { apply Forall_repeat. rewrite repeat_length. lia. }
  assert (FE : Forall (fun e => Z.of_nat (length e) = asize a) (firstn (Z.to_nat n) es)).
  { clear - H4. revert H4. generalize (Z.to_nat n) as m. intros m F. revert m. induction F; intros [|m]; cbn; constructor; auto. }
  destruct (alen a =? 0) eqn:Z0.
  - assert (es = []) by (destruct es; [reflexivity|cbn [length] in H1; lia]). subst es. eexists. split; [reflexivity|]. split; [|reflexivity].
    rewrite firstn_nil in *. cbn [app length] in *. rewrite Nat.sub_0_r in *.
    unfold elems. cbn [alen asize adata ablock]. rewrite repeat_length. repeat split; try lia; try discriminate; auto.
    apply zeros_concat; lia.
  - rewrite Bk, map_length. assert (CL := concat_len es (asize a) H4).
    destruct (n >? alen a) eqn:G.
    + rewrite firstn_all2 by (rewrite map_length; nia).
      rewrite (Z.mod_small (alen a * asize a)) by nia. rewrite (Z.mod_small ((n - alen a) * asize a)) by nia.
      replace (Z.to_nat (alen a * asize a)) with (length (map Some (concat es))) by (rewrite map_length; nia).
      rewrite wrn_ok by (rewrite !repeat_length; nia). cbn [obind]. eexists. split; [reflexivity|]. split; [|reflexivity].
      rewrite firstn_all2 in * by lia.
      unfold elems. cbn [alen asize adata ablock]. rewrite app_length, repeat_length. repeat split; try lia; try discriminate.
      * apply Forall_app. auto.
      * rewrite skipn_all2 by (rewrite !repeat_length; nia). rewrite app_nil_r, concat_app, map_app. f_equal.
        rewrite <- (Nat2Z.id (Z.to_nat n - length es)). rewrite <- zeros_concat by lia. unfold zeros.
        replace (Z.to_nat (Z.of_nat (Z.to_nat n - length es) * asize a)) with (Z.to_nat ((n - alen a) * asize a)) by (f_equal; nia).
        generalize (Z.to_nat ((n - alen a) * asize a)). intros q. clear. induction q; cbn; congruence.
    + eexists. split; [reflexivity|]. split; [|reflexivity]. replace (Z.to_nat n - length es)%nat with 0%nat by lia. cbn [repeat app]. rewrite !app_nil_r.
      replace (Z.to_nat (n * asize a) - length (concat es))%nat with 0%nat by nia. cbn [repeat]. rewrite app_nil_r.
      unfold elems. cbn [alen asize adata ablock]. rewrite firstn_length. repeat split; try lia; try discriminate; auto.
      rewrite firstn_map. f_equal. apply firstn_concat; auto; lia.
Qed.
Lemma resize_zero a : array_resize a 0 = Abort.
Proof. reflexivity. Qed.

Lemma copy_ok a es n : elems a es -> 0 <= n -> n * asize a < W64 ->
  exists c, array_copy a n = Ok c /\
    elems c (firstn (Z.to_nat n) es ++ repeat (repeat 0 (Z.to_nat (asize a))) (Z.to_nat n - length es)) /\ asize c = asize a.
Proof.
  intros H N B. pose proof H as (H1 & H2 & H3 & H4 & Bk & Nn). unfold array_copy.
  destruct (new_ok n (asize a) N H2 B) as (c & C1 & C2 & C3). rewrite C1. cbn [obind].
  pose proof C2 as (K1 & K2 & K3 & K4 & K5 & K6). rewrite repeat_length in K1.
  destruct ((alen a >? 0) && (alen c >? 0)) eqn:G.
  - assert (CL := concat_len es (asize a) H4). rewrite C3. set (m := Z.min (alen a) (alen c)).
    assert (Hm : m = Z.min (Z.of_nat (length es)) n) by lia. rewrite (Z.mod_small (m * asize a)) by nia.
    rewrite Bk. replace (map Some (concat es)) with (@nil (option Z) ++ map Some (concat es) ++ []) by now rewrite app_nil_r.
    change (rdn ([] ++ map Some (concat es) ++ []) 0) with (rdn ([] ++ map Some (concat es) ++ []) (@length (option Z) [])).
    rewrite rdn_ok by nia. cbn [obind].
    assert (EF : firstn (Z.to_nat (m * asize a)) (concat es) = concat (firstn (Z.to_nat n) es)).
    { rewrite firstn_concat by (auto; lia). f_equal. rewrite Hm. destruct (Z.le_gt_cases n (Z.of_nat (length es))); [f_equal; lia|].
      rewrite !firstn_all2 by lia. reflexivity. }
    rewrite EF. set (f := concat (firstn (Z.to_nat n) es)) in *.
    assert (FL : Z.of_nat (length f) = m * asize a) by (rewrite <- EF, firstn_length; nia).
    assert (CB : Z.of_nat (length (ablock c)) = n * asize a).
    { rewrite K5, map_length. rewrite (concat_len _ (asize c) K4), repeat_length, C3. lia. }
    change (wrn (ablock c) 0 f) with (wrn ([] ++ ablock c) (@length (option Z) []) f).
    rewrite wrn_ok by nia. cbn [obind app]. eexists. split; [reflexivity|]. split; [|reflexivity].
    unfold elems. cbn [alen asize adata ablock]. rewrite app_length, firstn_length, repeat_length. rewrite C3 in *. repeat split; try lia; try discriminate.
    + apply Forall_app. split; [|apply Forall_repeat; rewrite repeat_length; lia].
      clear - H4. revert H4. generalize (Z.to_nat n) as q. intros q F. revert q. induction F; intros [|q]; cbn; constructor; auto.
    + rewrite concat_app, map_app. fold f. f_equal. rewrite K5.
      rewrite <- (Nat2Z.id (Z.to_nat n - length es)). rewrite <- !zeros_concat by lia. unfold zeros.
      replace (length f) with (Z.to_nat (m * asize a)) by lia.
      replace (Z.to_nat (n * asize a)) with (Z.to_nat (m * asize a) + Z.to_nat (Z.of_nat (Z.to_nat n - length es) * asize a))%nat by nia.
      rewrite repeat_app, skipn_app, skipn_all2 by (rewrite repeat_length; lia). rewrite repeat_length, Nat.sub_diag. reflexivity.
  - exists c. split; [reflexivity|]. split; [|exact C3].
    assert (Q : firstn (Z.to_nat n) es ++ repeat (repeat 0 (Z.to_nat (asize a))) (Z.to_nat n - length es) = repeat (repeat 0 (Z.to_nat (asize a))) (Z.to_nat n)).
    { destruct es as [|e es].
      - rewrite firstn_nil. cbn [app length]. now rewrite Nat.sub_0_r.
      - cbn [length] in *. replace (Z.to_nat n) with 0%nat by lia. reflexivity. }
    rewrite Q. exact C2.
Qed.

Lemma with_ok d size : (0 < length d)%nat -> 0 < size -> forall n rest, Z.of_nat (length d) = n * size -> Z.of_nat (length d) < W64 ->
  exists a, array_with (Some (d ++ rest)) n size true = Ok a /\ ablock a = map Some d /\ alen a = n /\ asize a = size.
Proof.
  intros L S n rest E B. unfold array_with, array_set_data. rewrite (Z.mod_small (n * size)) by lia. unfold arrayrep_init.
  assert (0 < n) by nia. replace (n >? 0) with true by lia. replace (size >? 0) with true by lia. cbn [guard obind alen asize ablock adata].
  rewrite map_app. change (rdn (map Some d ++ map Some rest) 0) with (rdn ([] ++ map Some d ++ map Some rest) (@length (option Z) [])).
  rewrite rdn_ok by lia. cbn [obind]. rewrite firstn_all2 by lia.
  change (wrn (zeros (n * size)) 0 d) with (wrn ([] ++ zeros (n * size)) (@length (option Z) []) d).
  rewrite wrn_ok by (unfold zeros; rewrite repeat_length; lia). cbn [obind app]. eexists. split; [reflexivity|]. cbn.
  rewrite skipn_all2 by (unfold zeros; rewrite repeat_length; lia). rewrite app_nil_r. auto.
Qed.
