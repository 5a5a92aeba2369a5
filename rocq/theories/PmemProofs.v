(** What the functions on pointer arrays do to memory. *)
From Coq Require Import Permutation.
From Verif Require Import Prelude Perm HeapModel PtrArrayModel PtrArrayProofs PtrDel PmemModel PmemSpec.
Local Open Scope Z_scope.

Definition acells (a d : nat) (x : parr) : list (nat * pcell) := [(a, PArr (size x) (count x) d (cb x)); (d, PBlk (slots x))].
Lemma load_ok m a d x R : owns m (acells a d x ++ R) -> load m a = Ok (x, d).
Proof.
  intros H. unfold load, rd_arr, rd_blk. rewrite (owns_in _ _ a (PArr (size x) (count x) d (cb x)) H) by (now left). cbn [obind]. rewrite (owns_in _ _ d (PBlk (slots x)) H) by (right; now left). cbn [obind]. now destruct x.
Qed.
Lemma arr_ok m a d x R : owns m (acells a d x ++ R) -> rd_arr m a = Ok (size x, count x, d, cb x).
Proof. intros H. unfold rd_arr. rewrite (owns_in _ _ a (PArr (size x) (count x) d (cb x)) H) by (now left). reflexivity. Qed.
Lemma save_ok m a d x x' R : owns m (acells a d x ++ R) -> owns (save m a d x') (acells a d x' ++ R).
Proof.
  intros H. unfold save. apply (owns_put _ a (PArr (size x) (count x) d (cb x))). apply (owns_perm _ ((d, PBlk (slots x')) :: (a, PArr (size x) (count x) d (cb x)) :: R)); [|perm]. apply (owns_put _ d (PBlk (slots x))). apply (owns_perm _ _ _ H). unfold acells. perm.
Qed.
Lemma cb_copy x sz r x' : pa_resize x sz = Ok (r, x') -> cb x' = cb x.
Proof. unfold pa_resize. intros E. apply obind_ok in E. destruct E as (u & _ & E). destruct (_ <? _); [congruence|]. apply obind_ok in E. destruct E as (nd & _ & E). match type of E with Ok (_, ?z) = _ => assert (x' = z) by congruence end. subst. reflexivity. Qed.
Lemma cb_add x p r x' : pa_add x p = Ok (r, x') -> cb x' = cb x.
Proof.
  unfold pa_add. destruct (p =? 0); [congruence|]. intros E. apply obind_ok in E. destruct E as ([r1 x1] & E1 & E). assert (C1 : cb x1 = cb x) by (destruct (count x >=? size x); [now apply cb_copy in E1|congruence]). destruct (r1 <? 0); [congruence|]. apply obind_ok in E. destruct E as (x2 & E2 & E). unfold wr in E2. destruct (_ && _); [|discriminate]. match type of E2 with Ok ?z = _ => assert (x2 = z) by congruence end. subst x2. match type of E with Ok (_, ?z) = _ => assert (x' = z) by congruence end. subst x'. exact C1.
Qed.
Lemma cb_cat : forall n x y i r x', cat_loop n x y i = Ok (r, x') -> cb x' = cb x.
Proof.
  induction n as [|n IH]; intros x y i r x' E1; cbn [cat_loop] in E1; [discriminate|]. destruct (i <? count y); [|congruence]. apply obind_ok in E1. destruct E1 as (z & Ez & E1). apply obind_ok in E1. destruct E1 as ([r1 x1] & Ea & E1). apply cb_add in Ea. destruct (negb (r1 =? 0)); [congruence|]. apply IH in E1. congruence.
Qed.
Lemma m_move_ok m a d x R s t r x' : owns m (acells a d x ++ R) -> pa_move x s t = Ok (r, x') -> exists m', m_move m a s t = Ok (r, m') /\ owns m' (acells a d x' ++ R).
Proof. intros H E. unfold m_move. rewrite (load_ok _ _ _ _ _ H). cbn [obind]. rewrite E. cbn [obind]. eexists. split; [reflexivity|]. now apply (save_ok _ _ _ x). Qed.

(** deleting *)
Lemma m_del_none : forall fuel m a d x R p i x', owns m (acells a d x ++ R) -> del_loop fuel x p i = Ok (x', []) -> exists m', m_del_loop fuel m a p i = Ok m' /\ owns m' (acells a d x' ++ R).
Proof.
  induction fuel as [|fuel IH]; intros m a d x R p i x' H E; cbn [del_loop] in E; [discriminate|]. cbn [m_del_loop]. rewrite (load_ok _ _ _ _ _ H). cbn [obind]. destruct (i <? count x); [|assert (x' = x) by congruence; subst; eauto]. apply obind_ok in E. destruct E as (v & Ev & E). rewrite Ev. cbn [obind]. destruct (v =? p); [|now apply (IH m a d x)]. apply obind_ok in E. destruct E as ([r1 x1] & E1 & E). rewrite E1. cbn [obind]. apply obind_ok in E. destruct E as ([x3 fr] & E3 & E). destruct (cb x); [discriminate|]. assert (x3 = x' /\ fr = []) as [-> ->] by (split; congruence). cbn [obind]. exact (IH _ a d _ R p (i + 1) x' (save_ok _ _ _ x _ _ H) E3).
Qed.
Lemma m_del_one : forall fuel m a d x R p i x' c, owns m (acells a d x ++ (Z.to_nat p, c) :: R) -> del_loop fuel x p i = Ok (x', [p]) -> exists m', m_del_loop fuel m a p i = Ok m' /\ owns m' (acells a d x' ++ R).
Proof.
  induction fuel as [|fuel IH]; intros m a d x R p i x' c H E; cbn [del_loop] in E; [discriminate|]. cbn [m_del_loop]. rewrite (load_ok _ _ _ _ _ H). cbn [obind]. destruct (i <? count x); [|discriminate]. apply obind_ok in E. destruct E as (v & Ev & E). rewrite Ev. cbn [obind]. destruct (v =? p); [|now apply (IH m a d x R p (i + 1) x' c)]. apply obind_ok in E. destruct E as ([r1 x1] & E1 & E). rewrite E1. cbn [obind]. apply obind_ok in E. destruct E as ([x3 fr] & E3 & E). assert (x3 = x') by congruence. subst x3. pose proof (save_ok _ _ _ _ (mkparr (size x1) (count x1 - 1) (slots x1) (cb x1)) _ H) as H2. destruct (cb x).
  - assert (fr = []) by congruence. subst fr. destruct (owns_free (save m a d (mkparr (size x1) (count x1 - 1) (slots x1) (cb x1))) (Z.to_nat p) c (acells a d (mkparr (size x1) (count x1 - 1) (slots x1) (cb x1)) ++ R)) as (m2 & E4 & H3); [apply (owns_perm _ _ _ H2); perm|]. rewrite E4. cbn [obind]. exact (m_del_none fuel m2 a d _ R p (i + 1) x' H3 E3).
  - assert (fr = [p]) by congruence. subst fr. cbn [obind]. exact (IH _ a d _ R p (i + 1) x' c H2 E3).
Qed.
(** a second callback frees what is gone *)
Lemma m_del_dead : forall fuel m a d x R p i x' fr, owns m (acells a d x ++ R) -> ~ In (Z.to_nat p) (a :: d :: map fst R) -> del_loop fuel x p i = Ok (x', fr) -> fr <> [] -> m_del_loop fuel m a p i = UB.
Proof.
  induction fuel as [|fuel IH]; intros m a d x R p i x' fr H N E NF; cbn [del_loop] in E; [discriminate|]. cbn [m_del_loop]. rewrite (load_ok _ _ _ _ _ H). cbn [obind]. destruct (i <? count x); [|congruence]. apply obind_ok in E. destruct E as (v & Ev & E). rewrite Ev. cbn [obind]. destruct (v =? p); [|now apply (IH m a d x R p (i + 1) x' fr)]. apply obind_ok in E. destruct E as ([r1 x1] & E1 & E). rewrite E1. cbn [obind]. apply obind_ok in E. destruct E as ([x3 fr'] & E3 & E). pose proof (save_ok _ _ _ _ (mkparr (size x1) (count x1 - 1) (slots x1) (cb x1)) _ H) as H2. destruct (cb x).
  - destruct (owns_gone _ _ (Z.to_nat p) H2) as [G _]; [exact N|]. rewrite G. reflexivity.
  - assert (fr' = fr) by congruence. subst fr'. cbn [obind]. exact (IH _ a d _ R p (i + 1) x3 fr H2 N E3 NF).
Qed.
Lemma m_del_twice : forall fuel m a d x R p i x' fr c, owns m (acells a d x ++ (Z.to_nat p, c) :: R) -> del_loop fuel x p i = Ok (x', p :: p :: fr) -> m_del_loop fuel m a p i = UB.
Proof.
  induction fuel as [|fuel IH]; intros m a d x R p i x' fr c H E; cbn [del_loop] in E; [discriminate|]. cbn [m_del_loop]. rewrite (load_ok _ _ _ _ _ H). cbn [obind]. destruct (i <? count x); [|discriminate]. apply obind_ok in E. destruct E as (v & Ev & E). rewrite Ev. cbn [obind]. destruct (v =? p); [|now apply (IH m a d x R p (i + 1) x' fr c)]. apply obind_ok in E. destruct E as ([r1 x1] & E1 & E). rewrite E1. cbn [obind]. apply obind_ok in E. destruct E as ([x3 fr'] & E3 & E). pose proof (save_ok _ _ _ _ (mkparr (size x1) (count x1 - 1) (slots x1) (cb x1)) _ H) as H2. destruct (cb x).
  - assert (fr' = p :: fr) by congruence. subst fr'. assert (H3 : owns (save m a d (mkparr (size x1) (count x1 - 1) (slots x1) (cb x1))) ((Z.to_nat p, c) :: acells a d (mkparr (size x1) (count x1 - 1) (slots x1) (cb x1)) ++ R)) by (apply (owns_perm _ _ _ H2); perm). pose proof (owns_nodup _ _ H3) as ND. cbn [map fst] in ND. apply NoDup_cons_iff in ND. destruct ND as [ND _]. destruct (owns_free _ _ _ _ H3) as (m2 & E4 & H4). rewrite E4. cbn [obind]. apply (m_del_dead fuel m2 a d _ R p (i + 1) x3 (p :: fr) H4); [exact ND|exact E3|discriminate].
  - assert (fr' = p :: p :: fr) by congruence. subst fr'. cbn [obind]. exact (IH _ a d _ R p (i + 1) x3 fr c H2 E3).
Qed.

(** freeing members *)
Lemma m_free_ok : forall (qs : list (nat * pcell)) pre m a d x R, holds x (pre ++ map (fun q => Z.of_nat (fst q)) qs) -> owns m (acells a d x ++ qs ++ R) -> exists m', m_free_loop (length qs) m a (Z.of_nat (length pre)) = Ok m' /\ owns m' (acells a d x ++ R).
Proof.
  induction qs as [|[q c] qs IH]; intros pre m a d x R Hx H; cbn [length m_free_loop]; [eauto|]. rewrite (load_ok _ _ _ _ _ H). cbn [obind]. cbn [map fst] in Hx. rewrite (rd_ok x _ _ Hx) by (rewrite app_length; cbn [length]; lia). cbn [obind]. rewrite Nat2Z.id, app_nth2, Nat.sub_diag by lia. cbn [nth]. assert (q <> 0%nat). { apply (owns_nonnull _ _ _ c H). apply in_or_app. right. now left. } replace (Z.of_nat q =? 0) with false by lia. rewrite Nat2Z.id.
  destruct (owns_free m q c (acells a d x ++ qs ++ R)) as (m1 & E1 & H1); [apply (owns_perm _ _ _ H); perm|]. rewrite E1. cbn [obind]. specialize (IH (pre ++ [Z.of_nat q]) m1 a d x R). rewrite app_length in IH. cbn [length] in IH. replace (Z.of_nat (length pre + 1)) with (Z.of_nat (length pre) + 1) in IH by lia. apply IH; [now rewrite <- app_assoc|exact H1].
Qed.
Lemma m_free_cases : forall (ps : list nat) pre m a d x R, holds x (pre ++ map Z.of_nat ps) -> owns m (acells a d x ++ R) -> ~ In a ps -> ~ In d ps ->
  m_free_loop (length ps) m a (Z.of_nat (length pre)) = UB \/ exists m' qs R', m_free_loop (length ps) m a (Z.of_nat (length pre)) = Ok m' /\ owns m' (acells a d x ++ R') /\ Permutation R (qs ++ R') /\ map fst qs = ps.
Proof.
  induction ps as [|p ps IH]; intros pre m a d x R Hx H Na Nd; cbn [length m_free_loop].
  - right. exists m, [], R. auto.
  - rewrite (load_ok _ _ _ _ _ H). cbn [obind]. cbn [map] in Hx. rewrite (rd_ok x _ _ Hx) by (rewrite app_length; cbn [length]; lia). cbn [obind]. rewrite Nat2Z.id, app_nth2, Nat.sub_diag by lia. cbn [nth]. assert (p <> 0%nat). { intros ->. destruct Hx as (_ & _ & _ & _ & NZ). apply NZ. apply in_or_app. right. now left. } replace (Z.of_nat p =? 0) with false by lia. rewrite Nat2Z.id. destruct (in_dec Nat.eq_dec p (map fst R)) as [I|I].
    + apply in_map_iff in I. destruct I as ([p' c] & Ep & I). cbn [fst] in Ep. subst p'. apply in_split in I. destruct I as (R1 & R2 & ->). destruct (owns_free m p c (acells a d x ++ R1 ++ R2)) as (m1 & E1 & H1); [apply (owns_perm _ _ _ H); perm|]. rewrite E1. cbn [obind]. specialize (IH (pre ++ [Z.of_nat p]) m1 a d x (R1 ++ R2)). rewrite app_length in IH. cbn [length] in IH. replace (Z.of_nat (length pre + 1)) with (Z.of_nat (length pre) + 1) in IH by lia.
      destruct IH as [U|(m' & qs & R' & E' & H' & P' & F')]; [now rewrite <- app_assoc|exact H1|intros J; apply Na; now right|intros J; apply Nd; now right|now left|]. right. exists m', ((p, c) :: qs), R'. split; [exact E'|]. split; [exact H'|]. split; [|cbn [map fst]; congruence]. cbn [app]. rewrite <- P'. perm.
    + left. destruct (owns_gone _ _ p H) as [G _]; [|rewrite G; reflexivity]. rewrite map_app, in_app_iff. unfold acells. cbn [map fst In]. intros [[E|[E|[]]]|J]; [apply Na; left; congruence|apply Nd; left; congruence|contradiction].
Qed.

Section N.
Variable pick : nat -> list nat -> nat.
Hypothesis ok : good pick.
Lemma m_init_ok m f R : owns m R -> exists a d m', m_init pick m f = (a, m') /\ owns m' (acells a d (pa_init f) ++ R).
Proof.
  intros H. unfold m_init. destruct (owns_new pick m (PArr 32 0 0 f) _ ok H) as (a & m1 & E1 & H1). rewrite E1. destruct (owns_new pick m1 (PBlk (repeat None 32)) _ ok H1) as (d & m2 & E2 & H2). rewrite E2. exists a, d, (hput m2 a (PArr 32 0 d f)). split; [reflexivity|]. apply (owns_perm _ ((a, PArr 32 0 d f) :: (d, PBlk (repeat None 32)) :: R)); [|reflexivity]. apply (owns_put _ _ (PArr 32 0 0 f)). apply (owns_perm _ _ _ H2). perm.
Qed.
Lemma m_resize_ok m a d x R e r x' : owns m (acells a d x ++ R) -> pa_resize x e = Ok (r, x') -> exists d' m', m_resize pick m a e = Ok (r, m') /\ owns m' (acells a d' x' ++ R).
Proof.
  intros H E. unfold m_resize. rewrite (load_ok _ _ _ _ _ H). cbn [obind]. unfold pa_resize in E. cbv zeta in *. apply obind_ok in E. destruct E as (u & Eu & E). rewrite Eu. cbn [obind]. destruct (_ <? _); [assert (r = -1 /\ x' = x) as [-> ->] by (split; congruence); eauto|]. apply obind_ok in E. destruct E as (nl & En & E). match type of E with Ok (_, ?z) = _ => assert (r = 0 /\ x' = z) as [-> ->] by (split; congruence) end.
  match goal with |- context [hnew pick m ?c] => destruct (owns_new pick m c _ ok H) as (nd & m1 & E1 & H1) end. rewrite E1. unfold rd_blk. rewrite (owns_get _ _ _ _ H1). cbn [obind]. rewrite En. cbn [obind]. pose proof (owns_put _ _ _ (PBlk nl) _ H1) as H2. destruct (owns_free (hput m1 nd (PBlk nl)) d (PBlk (slots x)) ((a, PArr (size x) (count x) d (cb x)) :: (nd, PBlk nl) :: R)) as (m3 & E3 & H3); [apply (owns_perm _ _ _ H2); unfold acells; perm|]. rewrite E3. cbn [obind]. eexists nd, _. split; [reflexivity|]. exact (owns_put _ _ _ (PArr (size x + (if e =? 0 then DEFAULT_SIZE else e)) (count x) nd (cb x)) _ H3).
Qed.
Lemma m_add_ok m a d x R p r x' : owns m (acells a d x ++ R) -> pa_add x p = Ok (r, x') -> exists d' m', m_add pick m a p = Ok (r, m') /\ owns m' (acells a d' x' ++ R).
Proof.
  intros H E. unfold m_add. unfold pa_add in E. destruct (p =? 0); [assert (r = 0 /\ x' = x) as [-> ->] by (split; congruence); eauto|]. rewrite (load_ok _ _ _ _ _ H). cbn [obind]. apply obind_ok in E. destruct E as ([r1 x1] & E1 & E).
  assert (Q : exists d1 m1, (if count x >=? size x then m_resize pick m a 0 else Ok (0, m)) = Ok (r1, m1) /\ owns m1 (acells a d1 x1 ++ R)). { destruct (count x >=? size x); [exact (m_resize_ok m a d x R 0 r1 x1 H E1)|]. assert (r1 = 0 /\ x1 = x) as [-> ->] by (split; congruence). eauto. }
  destruct Q as (d1 & m1 & Q1 & H1). rewrite Q1. cbn [obind]. destruct (r1 <? 0); [assert (r = -1 /\ x' = x1) as [-> ->] by (split; congruence); eauto|]. rewrite (load_ok _ _ _ _ _ H1). cbn [obind]. apply obind_ok in E. destruct E as (x2 & E2 & E). rewrite E2. cbn [obind]. match type of E with Ok (_, ?z) = _ => assert (r = 0 /\ x' = z) as [-> ->] by (split; congruence) end. eexists d1, _. split; [reflexivity|]. now apply (save_ok _ _ _ x1).
Qed.
Lemma m_cat_ok : forall fuel m a d x b e y R i r x', owns m (acells a d x ++ acells b e y ++ R) -> cat_loop fuel x y i = Ok (r, x') -> exists d' m', m_cat_loop pick fuel m a b i = Ok (r, m') /\ owns m' (acells a d' x' ++ acells b e y ++ R).
Proof.
  induction fuel as [|fuel IH]; intros m a d x b e y R i r x' H E; cbn [cat_loop] in E; [discriminate|]. cbn [m_cat_loop]. assert (Hb : owns m (acells b e y ++ acells a d x ++ R)) by (apply (owns_perm _ _ _ H); perm). rewrite (load_ok _ _ _ _ _ Hb). cbn [obind]. destruct (i <? count y); [|assert (r = 0 /\ x' = x) as [-> ->] by (split; congruence); eauto]. apply obind_ok in E. destruct E as (v & Ev & E). rewrite Ev. cbn [obind]. apply obind_ok in E. destruct E as ([r1 x1] & E1 & E). destruct (m_add_ok _ _ _ _ _ _ _ _ H E1) as (d1 & m1 & Q1 & H1). rewrite Q1. cbn [obind]. destruct (negb (r1 =? 0)); [assert (r = -1 /\ x' = x1) as [-> ->] by (split; congruence); eauto|]. now apply (IH m1 a d1 x1).
Qed.
End N.
