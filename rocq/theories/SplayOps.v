(** The operations on splay trees. *)
From Coq Require Import Permutation Sorted.
From Verif Require Import Prelude AmemModel AmemProofs HeapModel Perm SplayModel SplaySpec SplayProofs.
Local Open Scope nat_scope.

Definition dm (R : list (nat * node)) : list el := map (fun b => (fst b, key (snd b))) R.
Lemma dm_app a b : dm (a ++ b) = dm a ++ dm b. Proof. apply map_app. Qed.
Lemma dm_tb t : Permutation (dm (tb t)) (ino t).
Proof. induction t as [|l IHl x k r IHr]; [reflexivity|]. cbn [tb ino]. unfold dm in *. cbn [map fst snd key]. rewrite map_app, IHl, IHr. perm. Qed.
Lemma size_ino t : size t = length (ino t). Proof. induction t; [reflexivity|]. cbn [size ino]. rewrite app_length. cbn [length]. lia. Qed.
Definition tre (m : mem) (t : tree) (R : list (nat * node)) : Prop := owns (fst m) (tb t ++ R) /\ snd m = ptr t.
Lemma key_in m t R e k : tre m t R -> In (e, k) (ino t ++ dm R) -> keyof (fst m) e = Ok k.
Proof.
  intros [O _] J. assert (J' : In (e, k) (dm (tb t ++ R))). { rewrite dm_app. apply (Permutation_in _ (Permutation_app_tail _ (Permutation_sym (dm_tb t)))). exact J. }
  apply in_map_iff in J' as ([x n] & X & J'). cbn [fst snd] in X. assert (x = e) by congruence. subst x. unfold keyof, get. rewrite (owns_in _ _ _ _ O J'). cbn [obind]. congruence.
Qed.
Lemma tre_root m t R : tre m t R -> (snd m =? 0) = match t with E => true | _ => false end.
Proof. intros [O H]. rewrite H. destruct t as [|l x k r]; [reflexivity|]. apply Nat.eqb_neq. apply (owns_ptr (fst m) (T l x k r) R O). discriminate. Qed.
Lemma sorted_split cmp A x B : sorted cmp (A ++ x :: B) -> Forall (fun y => (cmp (snd y) (snd x) < 0)%Z) A /\ Forall (fun y => (cmp (snd x) (snd y) < 0)%Z) B.
Proof.
  induction A as [|a A IH]; intros S; cbn [app] in S.
  - inversion S; subst. split; [constructor|assumption].
  - inversion S as [|? ? S1 S2]; subst. destruct (IH S1) as [HA HB]. split; [|exact HB]. constructor; [|exact HA]. rewrite Forall_forall in S2. apply S2. apply in_or_app. right. now left.
Qed.
Section O.
Variable pick : nat -> list nat -> nat.
Variable cmp : Z -> Z -> Z.
Variable fuel : nat.
Hypothesis G : good pick.
Hypothesis OC : order cmp.
Notation gt k := (gt_ (cmp k)). Notation lt k := (lt_ (cmp k)).
Lemma cmp_refl a : cmp a a = 0%Z. Proof. destruct OC as (A & _ & _). specialize (A a a). destruct (Z.lt_trichotomy (cmp a a) 0) as [H|[H|H]]; [|exact H|]; exfalso; [pose proof (proj1 A H); lia|]. assert (X : (cmp a a < 0)%Z) by (apply A; lia). lia. Qed.
Lemma cmp_anti a b : (cmp a b > 0 <-> cmp b a < 0)%Z. Proof. destruct OC as (A & _ & _). symmetry. apply A. Qed.
Lemma cmp_cong a b c : cmp a b = 0%Z -> (cmp c a < 0 -> cmp c b < 0)%Z.
Proof.
  intros H L. destruct OC as (A & TR & CG). destruct (Z.lt_trichotomy (cmp c b) 0) as [X|[X|X]]; [exact X| |]; exfalso.
  - apply (CG _ _ a X) in L. apply A in L. lia.
  - assert (X' : (cmp b c < 0)%Z) by (apply A; lia). pose proof (TR _ _ _ X' L) as Y. apply A in Y. lia.
Qed.
Lemma sorted_mono k S : sorted cmp S -> mono (cmp k) S.
Proof.
  intros H A x B ->. apply sorted_split in H as [HA HB]. destruct OC as (AN & TR & CG). unfold lt_, gt_. split; [|split; [|split]].
  - intros L. eapply Forall_impl; [|exact HB]. cbn beta. intros y Hy. eapply TR; eauto.
  - intros L. apply cmp_anti in L. eapply Forall_impl; [|exact HA]. cbn beta. intros y Hy. apply cmp_anti. eapply TR; eauto.
  - eapply Forall_impl; [|exact HA]. cbn beta. intros y Hy. apply cmp_anti. apply (cmp_cong (snd x)); [|exact Hy]. destruct (Z.lt_trichotomy (cmp (snd x) k) 0) as [X|[X|X]]; [|exact X|]; exfalso; [apply AN in X; lia|]. assert (X2 : (cmp (snd x) k > 0)%Z) by lia. apply cmp_anti in X2. lia.
  - eapply Forall_impl; [|exact HB]. cbn beta. intros y Hy. now apply (CG _ _ (snd y) H).
Qed.
Lemma filter_all {A} (f : A -> bool) l : Forall (fun x => f x = true) l -> filter f l = l.
Proof. induction l as [|a l IH]; intros H; [reflexivity|]. inversion H; subst. cbn [filter]. rewrite H2. now rewrite IH. Qed.
Lemma filter_none {A} (f : A -> bool) l : Forall (fun x => f x = false) l -> filter f l = [].
Proof. induction l as [|a l IH]; intros H; [reflexivity|]. inversion H; subst. cbn [filter]. rewrite H2. now rewrite IH. Qed.
Lemma gtb z : (z >? 0)%Z = true <-> (z > 0)%Z. Proof. rewrite Z.gtb_ltb, Z.ltb_lt. lia. Qed.
Lemma gtb_f z : (z >? 0)%Z = false <-> (z <= 0)%Z. Proof. rewrite Z.gtb_ltb, Z.ltb_ge. lia. Qed.
Lemma cut k A x B : Forall (gt k) A -> Forall (lt k) B ->
  below cmp k (A ++ x :: B) = A ++ (if (cmp k (snd x) >? 0)%Z then [x] else []) /\
  equal cmp k (A ++ x :: B) = (if (cmp k (snd x) =? 0)%Z then [x] else []) /\
  above cmp k (A ++ x :: B) = (if (cmp k (snd x) <? 0)%Z then [x] else []) ++ B.
Proof.
  intros HA HB. unfold below, equal, above. rewrite !filter_app. cbn [filter]. unfold gt_ in HA. unfold lt_ in HB. split; [|split].
  - rewrite (filter_all _ A), (filter_none _ B); [now destruct (cmp k (snd x) >? 0)%Z| |]; (eapply Forall_impl; [|eassumption]); cbn beta; intros y Y; [apply gtb_f; lia|now apply gtb].
  - rewrite (filter_none _ A), (filter_none _ B); [now destruct (cmp k (snd x) =? 0)%Z| |]; (eapply Forall_impl; [|eassumption]); cbn beta; intros y Y; apply Z.eqb_neq; lia.
  - rewrite (filter_none _ A), (filter_all _ B); [now destruct (cmp k (snd x) <? 0)%Z| |]; (eapply Forall_impl; [|eassumption]); cbn beta; intros y Y; [now apply Z.ltb_lt|apply Z.ltb_ge; lia].
Qed.
Lemma splay_elm_ok m t R e ke : tre m t R -> t <> E -> size t <= fuel -> In (e, ke) (ino t ++ dm R) -> mono (cmp ke) (ino t) ->
  exists h a x k b, splay_elm pick cmp fuel m e = Ok (h, x) /\ tre (h, x) (T a x k b) R /\ ino a ++ (x, k) :: ino b = ino t /\ Forall (gt ke) (ino a) /\ Forall (lt ke) (ino b).
Proof.
  intros TR N F J S. unfold splay_elm. rewrite (key_in _ _ _ _ _ TR J). cbn [obind]. destruct TR as [O H]. rewrite H. destruct (splay_ok pick (cmp ke) fuel (fst m) t R G O N F S) as (h & a & x & k & b & E1 & O1 & I1 & A & B). exists h, a, x, k, b. split; [exact E1|]. split; [split; [exact O1|reflexivity]|]. auto.
Qed.
Lemma e_dec t : {t = E} + {t <> E}. Proof. destruct t; [now left|right; discriminate]. Qed.
Lemma find_ok m t R e ke : tre m t R -> size t <= fuel -> In (e, ke) (ino t ++ dm R) -> sorted cmp (ino t) ->
  exists m' t', find pick cmp fuel m e = Ok (first_of (equal cmp ke (ino t)), m') /\ tre m' t' R /\ ino t' = ino t.
Proof.
  intros TR F J S. unfold find. rewrite (tre_root _ _ _ TR). destruct (e_dec t) as [-> | N]; [exists m, E; auto|]. destruct (splay_elm_ok _ _ _ _ _ TR N F J (sorted_mono _ _ S)) as (h & a & x & k & b & E1 & T1 & I1 & A & B).
  replace (match t with E => true | _ => false end) with false by (destruct t; congruence). rewrite E1. cbn [obind]. rewrite (key_in _ _ _ e ke T1) by (cbn [ino]; now rewrite I1). cbn [obind snd]. rewrite (key_in _ _ _ x k T1) by (cbn [ino]; rewrite !in_app_iff; left; right; now left). cbn [obind snd].
  destruct (cut ke _ (x, k) _ A B) as (_ & Q & _). rewrite I1 in Q. cbn [snd] in Q. exists (h, x), (T a x k b). split; [|split; [exact T1|exact I1]]. rewrite Q. now destruct (cmp ke k =? 0)%Z.
Qed.
Lemma leftmost_ok h : forall t L f, owns h (tb t ++ L) -> t <> E -> size t <= f -> leftmost f h (ptr t) = Ok (first_of (ino t)).
Proof.
  induction t as [|l IHl x k r IHr]; intros L f O N F; [congruence|]. cbn [size] in F. destruct f as [|f]; [lia|]. cbn [leftmost ptr]. unfold left, get. rewrite (owns_in _ _ x (mknode (ptr l) (ptr r) k) O) by now left. cbn [obind lf]. destruct (e_dec l) as [-> | NL]; [reflexivity|].
  assert (O1 : owns h (tb l ++ ((x, mknode (ptr l) (ptr r) k) :: tb r) ++ L)) by (apply (owns_perm _ _ _ O); cbn [tb]; perm). pose proof (owns_ptr _ _ _ O1 NL) as P. apply Nat.eqb_neq in P. rewrite P, (IHl _ _ O1 NL) by lia. cbn [ino]. unfold first_of. rewrite map_app. destruct (ino l) as [|y s] eqn:El; [|reflexivity]. exfalso. destruct l; [congruence|]. cbn [ino] in El. now destruct (ino l1).
Qed.
(* an element of the tree, whichever the comparison: only that the splay brings it to the root is used *)
Lemma next_ok m t R e ke : tre m t R -> size t <= fuel -> In (e, ke) (ino t) -> sorted cmp (ino t) ->
  exists m' t', nextof pick cmp fuel m e = Ok (first_of (above cmp ke (ino t)), m') /\ tre m' t' R /\ ino t' = ino t.
Proof.
  intros TR F J S. unfold nextof. assert (N : t <> E) by (intros ->; destruct J). destruct (splay_elm_ok m t R e ke TR N F) as (h & a & x & k & b & E1 & T1 & I1 & A & B); [apply in_or_app; now left|now apply sorted_mono|]. rewrite E1. cbn [obind fst].
  assert (X : e = x /\ ke = k). { rewrite <- I1 in J. pose proof (cmp_refl ke) as RF. rewrite Forall_forall in A, B. apply in_app_or in J as [J|[J|J]]; [apply A in J|split; congruence|apply B in J]; unfold gt_, lt_ in J; cbn [snd] in J; lia. } destruct X as [<- <-].
  pose proof T1 as [O1 H1]. cbn [fst] in O1. unfold right, get. rewrite (owns_in _ _ e (mknode (ptr a) (ptr b) ke) O1) by now left. cbn [obind rt].
  destruct (cut ke _ (e, ke) _ A B) as (_ & _ & Q). rewrite I1 in Q. cbn [snd] in Q. rewrite (cmp_refl ke) in Q. cbn [Z.ltb Z.compare app] in Q. rewrite Q.
  destruct (e_dec b) as [-> | NB].
  - cbn [ptr Nat.eqb]. exists (h, e), (T a e ke E). auto.
  - assert (O2 : owns h (tb b ++ ((e, mknode (ptr a) (ptr b) ke) :: tb a) ++ R)) by (apply (owns_perm _ _ _ O1); cbn [tb]; perm). pose proof (owns_ptr _ _ _ O2 NB) as P. apply Nat.eqb_neq in P. rewrite P.
    assert (Fb : size b <= fuel). { rewrite size_ino in *. rewrite <- I1, app_length in F. cbn [length] in F. lia. }
    rewrite (leftmost_ok _ _ _ _ O2 NB Fb). cbn [obind]. exists (h, e), (T a e ke b). auto.
Qed.
Lemma minmax_ok m t R v : tre m t R -> size t <= fuel -> (v = -1 \/ v = 1)%Z ->
  exists m' t', minmax pick fuel m v = Ok (first_of (if (v <? 0)%Z then ino t else rev (ino t)), m') /\ tre m' t' R /\ ino t' = ino t.
Proof.
  intros TR F V. unfold minmax. rewrite (tre_root _ _ _ TR). destruct (e_dec t) as [-> | N]; [exists m, E; split; [destruct (v <? 0)%Z; reflexivity|auto]|]. replace (match t with E => true | _ => false end) with false by (destruct t; congruence).
  destruct TR as [O H]. rewrite H. assert (M : mono (fun _ => v) (ino t)). { intros A x B _. unfold lt_, gt_. split; [intros L; apply Forall_forall; auto|]. split; [intros L; apply Forall_forall; auto|]. lia. }
  destruct (splay_ok pick (fun _ => v) fuel (fst m) t R G O N F M) as (h & a & x & k & b & E1 & O1 & I1 & A & B). rewrite E1. cbn [obind snd]. exists (h, x), (T a x k b). split; [|split; [split; [exact O1|reflexivity]|exact I1]]. rewrite <- I1. cbn [ino]. do 2 f_equal. unfold first_of. destruct V as [-> | ->]; cbn [Z.ltb Z.compare].
  - destruct (ino a) as [|y s]; [reflexivity|]. inversion A as [|? ? X]. unfold gt_ in X. lia.
  - destruct (ino b) as [|y s]; [rewrite rev_app_distr; reflexivity|]. inversion B as [|? ? X]. unfold lt_ in X. lia.
Qed.
Lemma insert_ok m t R e n : tre m t ((e, n) :: R) -> size t <= fuel -> sorted cmp (ino t) ->
  match equal cmp (key n) (ino t) with
  | [] => exists m' t', insert pick cmp fuel m e = Ok (0, m') /\ tre m' t' R /\ ino t' = below cmp (key n) (ino t) ++ (e, key n) :: above cmp (key n) (ino t)
  | y :: _ => exists m' t', insert pick cmp fuel m e = Ok (fst y, m') /\ tre m' t' ((e, n) :: R) /\ ino t' = ino t
  end.
Proof.
  intros TR F S. unfold insert. rewrite (tre_root _ _ _ TR). destruct (e_dec t) as [-> | N].
  - cbn [ino equal filter below above app]. destruct TR as [O _]. cbn [tb app] in O. destruct (owns_rt _ _ _ _ 0 O) as [E1 O1]. rewrite E1. cbn [obind]. destruct (owns_lf _ _ _ _ 0 O1) as [E2 O2]. rewrite E2. cbn [obind rt key lf] in *. eexists _, (T E e (key n) E). split; [reflexivity|]. split; [split; [exact O2|reflexivity]|reflexivity].
  - replace (match t with E => true | _ => false end) with false by (destruct t; congruence). assert (J : In (e, key n) (ino t ++ dm ((e, n) :: R))) by (apply in_or_app; right; now left).
    destruct (splay_elm_ok _ _ _ _ _ TR N F J (sorted_mono _ _ S)) as (h & a & x & k & b & E1 & T1 & I1 & A & B). rewrite E1. cbn [obind].
    pose proof (key_in _ _ _ e (key n) T1) as K1. cbn [ino fst] in K1. rewrite I1 in K1. rewrite (K1 J). cbn [obind]. pose proof (key_in _ _ _ x k T1) as K2. cbn [fst ino] in K2. rewrite K2 by (rewrite !in_app_iff; left; right; now left). cbn [obind].
    destruct (cut (key n) _ (x, k) _ A B) as (Q1 & Q2 & Q3). rewrite I1 in Q1, Q2, Q3. cbn [snd] in *. rewrite Q1, Q2, Q3. destruct T1 as [O1 _]. cbn [fst] in O1.
    assert (O2 : owns h ((x, mknode (ptr a) (ptr b) k) :: (e, n) :: tb a ++ tb b ++ R)) by (apply (owns_perm _ _ _ O1); cbn [tb]; perm).
    destruct (cmp (key n) k <? 0)%Z eqn:C1.
    + apply Z.ltb_lt in C1. replace (cmp (key n) k =? 0)%Z with false by (symmetry; apply Z.eqb_neq; lia). replace (cmp (key n) k >? 0)%Z with false by (symmetry; apply gtb_f; lia). unfold left, get. rewrite (owns_get _ _ _ _ O2). cbn [obind lf].
      assert (O3 : owns h ((e, n) :: (x, mknode (ptr a) (ptr b) k) :: tb a ++ tb b ++ R)) by (apply (owns_perm _ _ _ O2); perm). destruct (owns_lf _ _ _ _ (ptr a) O3) as [E2 O4]. rewrite E2. cbn [obind]. destruct (owns_rt _ _ _ _ x O4) as [E3 O5]. rewrite E3. cbn [obind rt lf key] in *. set (h2 := hput _ e (mknode (ptr a) x (key n))) in *.
      assert (O6 : owns h2 ((x, mknode (ptr a) (ptr b) k) :: (e, mknode (ptr a) x (key n)) :: tb a ++ tb b ++ R)) by (apply (owns_perm _ _ _ O5); perm). destruct (owns_lf _ _ _ _ 0 O6) as [E4 O7]. rewrite E4. cbn [obind rt key] in *. eexists _, (T a e (key n) (T E x k b)). split; [reflexivity|]. split; [split; [|reflexivity]|].
      * cbn [fst]. apply (owns_perm _ _ _ O7). cbn [tb ptr]. perm.
      * cbn [ino app]. now rewrite app_nil_r.
    + destruct (cmp (key n) k >? 0)%Z eqn:C2.
      * apply gtb in C2. replace (cmp (key n) k =? 0)%Z with false by (symmetry; apply Z.eqb_neq; lia). unfold right, get. rewrite (owns_get _ _ _ _ O2). cbn [obind rt].
        assert (O3 : owns h ((e, n) :: (x, mknode (ptr a) (ptr b) k) :: tb a ++ tb b ++ R)) by (apply (owns_perm _ _ _ O2); perm). destruct (owns_rt _ _ _ _ (ptr b) O3) as [E2 O4]. rewrite E2. cbn [obind]. destruct (owns_lf _ _ _ _ x O4) as [E3 O5]. rewrite E3. cbn [obind rt lf key] in *. set (h2 := hput _ e (mknode x (ptr b) (key n))) in *.
        assert (O6 : owns h2 ((x, mknode (ptr a) (ptr b) k) :: (e, mknode x (ptr b) (key n)) :: tb a ++ tb b ++ R)) by (apply (owns_perm _ _ _ O5); perm). destruct (owns_rt _ _ _ _ 0 O6) as [E4 O7]. rewrite E4. cbn [obind lf key] in *. eexists _, (T (T a x k E) e (key n) b). split; [reflexivity|]. split; [split; [|reflexivity]|].
        -- cbn [fst]. apply (owns_perm _ _ _ O7). cbn [tb ptr]. perm.
        -- cbn [ino app]. now rewrite <- app_assoc.
      * apply Z.ltb_ge in C1. apply gtb_f in C2. replace (cmp (key n) k =? 0)%Z with true by (symmetry; apply Z.eqb_eq; lia). exists (h, x), (T a x k b). split; [reflexivity|]. split; [split; [exact O1|reflexivity]|exact I1].
Qed.
Lemma ino_nil t : ino t = [] -> t = E. Proof. destruct t as [|l x k r]; [reflexivity|]. cbn [ino]. now destruct (ino l). Qed.
Lemma remove_ok m t R e ke : tre m t R -> size t <= fuel -> In (e, ke) (ino t ++ dm R) -> sorted cmp (ino t) ->
  match equal cmp ke (ino t) with
  | [] => exists m' t', remove pick cmp fuel m e = Ok (0, m') /\ tre m' t' R /\ ino t' = ino t
  | y :: _ => exists m' t' n, remove pick cmp fuel m e = Ok (e, m') /\ tre m' t' ((fst y, n) :: R) /\ key n = snd y /\ ino t' = below cmp ke (ino t) ++ above cmp ke (ino t) /\ Permutation (ino t) (y :: ino t')
  end.
Proof.
  intros TR F J S. unfold remove. rewrite (tre_root _ _ _ TR). destruct (e_dec t) as [-> | N]; [exists m, E; auto|]. replace (match t with E => true | _ => false end) with false by (destruct t; congruence).
  destruct (splay_elm_ok _ _ _ _ _ TR N F J (sorted_mono _ _ S)) as (h & a & x & k & b & E1 & T1 & I1 & A & B). rewrite E1. cbn [obind].
  pose proof (key_in _ _ _ e ke T1) as K1. cbn [ino fst] in K1. rewrite I1 in K1. rewrite (K1 J). cbn [obind]. pose proof (key_in _ _ _ x k T1) as K2. cbn [fst ino] in K2. rewrite K2 by (rewrite !in_app_iff; left; right; now left). cbn [obind].
  destruct (cut ke _ (x, k) _ A B) as (Q1 & Q2 & Q3). rewrite I1 in Q1, Q2, Q3. cbn [snd] in *. rewrite Q1, Q2, Q3. pose proof T1 as [O1 _]. cbn [fst] in O1.
  destruct (cmp ke k =? 0)%Z eqn:C0.
  - apply Z.eqb_eq in C0. replace (cmp ke k <? 0)%Z with false by (symmetry; apply Z.ltb_ge; lia). replace (cmp ke k >? 0)%Z with false by (symmetry; apply gtb_f; lia). cbn [fst snd app]. rewrite app_nil_r.
    unfold left at 1, get. rewrite (owns_in _ _ x (mknode (ptr a) (ptr b) k) O1) by now left. cbn [obind lf]. destruct (e_dec a) as [-> | NA].
    + cbn [ptr Nat.eqb]. unfold right, get. rewrite (owns_in _ _ x (mknode (ptr E) (ptr b) k) O1) by now left. cbn [obind rt]. exists (h, ptr b), b, (mknode 0 (ptr b) k). split; [reflexivity|]. split; [split; [|reflexivity]|split; [reflexivity|split; [reflexivity|]]].
      * cbn [fst]. apply (owns_perm _ _ _ O1). cbn [tb ptr app]. perm.
      * cbn [ino app] in I1. now rewrite <- I1.
    + set (n := mknode (ptr a) (ptr b) k) in *. assert (O2 : owns h (tb a ++ (x, n) :: tb b ++ R)) by (apply (owns_perm _ _ _ O1); cbn [tb]; fold n; perm). pose proof (owns_ptr _ _ _ O2 NA) as P. apply Nat.eqb_neq in P. rewrite P. unfold right at 1, get. rewrite (owns_in _ _ x n O1) by now left. cbn [obind rt n].
      assert (T2 : tre (h, ptr a) a ((x, n) :: tb b ++ R)) by (split; [exact O2|reflexivity]).
      assert (J2 : In (e, ke) (ino a ++ dm ((x, n) :: tb b ++ R))). { rewrite <- I1 in J. unfold dm. cbn [map fst snd]. rewrite map_app. cbn [key n]. fold (dm (tb b)). fold (dm R). apply (Permutation_in (l := (ino a ++ (x, k) :: ino b) ++ dm R)); [|exact J]. rewrite (dm_tb b). perm. }
      assert (Fa : size a <= fuel). { rewrite size_ino in *. rewrite <- I1, app_length in F. lia. }
      destruct (splay_elm_ok _ _ _ _ _ T2 NA Fa J2) as (h2 & a2 & y & ky & b2 & E2 & T3 & I2 & A2 & B2).
      { intros A' x' B' EQ. rewrite EQ in A. apply Forall_app in A as [A1 A3]. inversion A3; subst. unfold lt_, gt_ in *. split; [lia|]. split; [auto|]. lia. }
      rewrite E2. cbn [obind]. assert (X : b2 = E). { apply ino_nil. destruct (ino b2) as [|z s] eqn:Eb; [reflexivity|]. exfalso. inversion B2 as [|? ? X1]. rewrite Forall_forall in A. assert (X2 : gt ke z). { apply A. rewrite <- I2. apply in_or_app. right. right. now left. } unfold lt_ in X1. unfold gt_ in X2. lia. } subst b2.
      destruct T3 as [O3 _]. cbn [fst] in O3. assert (O4 : owns h2 ((y, mknode (ptr a2) (ptr E) ky) :: tb a2 ++ (x, n) :: tb b ++ R)) by (apply (owns_perm _ _ _ O3); cbn [tb]; perm). destruct (owns_rt _ _ _ _ (ptr b) O4) as [E4 O5]. cbn [lf key] in *. rewrite E4. cbn [obind]. cbn [ino] in I2.
      eexists _, (T a2 y ky b), n. split; [reflexivity|]. split; [split; [|reflexivity]|split; [reflexivity|split]].
      * cbn [fst]. apply (owns_perm _ _ _ O5). cbn [tb]. perm.
      * cbn [ino]. rewrite <- I2, <- app_assoc. reflexivity.
      * rewrite <- I1. cbn [ino]. rewrite <- I2. perm.
  - exists (h, x), (T a x k b). split; [reflexivity|]. split; [split; [exact O1|reflexivity]|exact I1].
Qed.
Lemma walk_ok R : forall f B A m t, tre m t R -> size t <= fuel -> sorted cmp (ino t) -> ino t = A ++ B -> length B < f ->
  exists m' t', walk pick cmp fuel f m (first_of B) = Ok (map fst B, m') /\ tre m' t' R /\ ino t' = ino t.
Proof.
  induction f as [|f IH]; intros B A m t TR F S I1 L; [lia|]. destruct B as [|[x k] B]; [exists m, t; auto|]. cbn [walk]. unfold first_of. cbn [map fst hd].
  assert (J : In (x, k) (ino t)) by (rewrite I1; apply in_or_app; right; now left).
  assert (NZ : x <> 0). { destruct TR as [O _]. assert (J' : In (x, k) (dm (tb t))) by (apply (Permutation_in _ (Permutation_sym (dm_tb t))); exact J). apply in_map_iff in J' as ([z n] & X & J'). cbn [fst snd] in X. assert (z = x) by congruence. subst z. apply (owns_nonnull _ _ x n O). apply in_or_app. now left. }
  apply Nat.eqb_neq in NZ. rewrite NZ. destruct (next_ok m t R x k TR F J S) as (m1 & t1 & E1 & T1 & I2). rewrite E1. cbn [obind].
  assert (X : above cmp k (ino t) = B). { pose proof S as S'. rewrite I1 in S'. apply sorted_split in S' as [HA HB]. rewrite I1. destruct (cut k A (x, k) B) as (_ & _ & Q). - eapply Forall_impl; [|exact HA]. cbn beta. intros y Y. unfold gt_. now apply cmp_anti. - eapply Forall_impl; [|exact HB]. intros y Y. exact Y. - rewrite Q. cbn [snd]. rewrite (cmp_refl k). reflexivity. }
  rewrite X. destruct (IH B (A ++ [(x, k)]) m1 t1 T1) as (m2 & t2 & E2 & T2 & I3); [rewrite size_ino in *; now rewrite I2|now rewrite I2|rewrite I2, I1, <- app_assoc; reflexivity|cbn [length] in L; lia|]. rewrite E2. cbn [obind]. exists m2, t2. split; [reflexivity|]. split; [exact T2|congruence].
Qed.
Lemma foreach_ok m t R : tre m t R -> size t < fuel -> sorted cmp (ino t) -> exists m' t', foreach pick cmp fuel m = Ok (map fst (ino t), m') /\ tre m' t' R /\ ino t' = ino t.
Proof.
  intros TR F S. unfold foreach. destruct (minmax_ok m t R (-1)) as (m1 & t1 & E1 & T1 & I1); [exact TR|lia|now left|]. rewrite E1. cbn [obind Z.ltb Z.compare]. rewrite size_ino in F. destruct (walk_ok R fuel (ino t) [] m1 t1 T1) as (m2 & t2 & E2 & T2 & I2); [rewrite size_ino, I1; lia|now rewrite I1|exact I1|exact F|]. rewrite E2. exists m2, t2. split; [reflexivity|]. split; [exact T2|congruence].
Qed.

(** ** histories *)
Variable ES : list el.
Definition inv (m : mem) (S : list el) : Prop := exists t R, tre m t R /\ ino t = S /\ Permutation (ino t ++ dm R) ES /\ sorted cmp S.
Lemma in_key e : NoDup (map fst ES) -> In e (map fst ES) -> In (e, key_of ES e) ES.
Proof.
  generalize ES as L. induction L as [|[x k] L IH]; intros D J; [destruct J|]. cbn [key_of]. cbn [map fst] in D, J. inversion D; subst. destruct (Nat.eqb_spec x e) as [-> | Ne]; [now left|]. right. apply IH; [assumption|]. destruct J as [J|J]; [congruence|exact J].
Qed.
Lemma key_uniq e k : NoDup (map fst ES) -> In (e, k) ES -> key_of ES e = k.
Proof. generalize ES as L. induction L as [|[x kx] L IH]; intros D J; [destruct J|]. cbn [key_of]. cbn [map fst] in D. inversion D; subst. destruct J as [J|J]; [assert (x = e) by congruence; subst x; rewrite Nat.eqb_refl; congruence|]. destruct (Nat.eqb_spec x e) as [-> | Ne]; [|now apply IH]. exfalso. apply H1. now apply (in_map fst) in J. Qed.
Lemma sorted_sub A B : sorted cmp (A ++ B) -> sorted cmp A /\ sorted cmp B /\ forall a b, In a A -> In b B -> (cmp (snd a) (snd b) < 0)%Z.
Proof.
  induction A as [|x A IH]; intros S; cbn [app] in S; [split; [constructor|split; [exact S|intros a b []]]|]. inversion S as [|? ? S1 S2]; subst. destruct (IH S1) as (H1 & H2 & H3). apply Forall_app in S2 as [S3 S4]. split; [constructor; auto|]. split; [exact H2|]. intros a b [<-|J] Jb; [rewrite Forall_forall in S4; auto|auto].
Qed.
Lemma sorted_join A B : sorted cmp A -> sorted cmp B -> (forall a b, In a A -> In b B -> (cmp (snd a) (snd b) < 0)%Z) -> sorted cmp (A ++ B).
Proof.
  intros SA SB H. induction A as [|x A IH]; [exact SB|]. inversion SA as [|? ? S1 S2]; subst. cbn [app]. constructor; [apply IH; [exact S1|intros; apply H; [now right|assumption]]|]. apply Forall_app. split; [exact S2|]. apply Forall_forall. intros b Jb. apply H; [now left|exact Jb].
Qed.
Lemma sorted_filter f S : sorted cmp S -> sorted cmp (filter f S).
Proof. induction S as [|x S IH]; intros H; [constructor|]. inversion H as [|? ? S1 S2]; subst. cbn [filter]. destruct (f x); [|now apply IH]. constructor; [now apply IH|]. apply Forall_forall. intros y Y. apply filter_In in Y as [Y _]. rewrite Forall_forall in S2. auto. Qed.
Lemma below_in k S y : In y (below cmp k S) -> (cmp (snd y) k < 0)%Z. Proof. intros J. apply filter_In in J as [_ J]. apply gtb in J. now apply cmp_anti. Qed.
Lemma above_in k S y : In y (above cmp k S) -> (cmp k (snd y) < 0)%Z. Proof. intros J. apply filter_In in J as [_ J]. now apply Z.ltb_lt. Qed.
Lemma sorted_insert k e S : sorted cmp S -> sorted cmp (below cmp k S ++ (e, k) :: above cmp k S).
Proof.
  intros H. destruct OC as (_ & TR & _). apply sorted_join.
  - now apply sorted_filter.
  - constructor; [now apply sorted_filter|]. apply Forall_forall. intros y Y. now apply above_in in Y.
  - intros a b Ja [<-|Jb]; apply below_in in Ja; [exact Ja|]. apply above_in in Jb. eapply TR; eauto.
Qed.
Lemma sorted_remove k S : sorted cmp S -> sorted cmp (below cmp k S ++ above cmp k S).
Proof. intros H. destruct OC as (_ & TR & _). apply sorted_join; [now apply sorted_filter|now apply sorted_filter|]. intros a b Ja Jb. apply below_in in Ja. apply above_in in Jb. eapply TR; eauto. Qed.
Lemma parts_perm k S : sorted cmp S -> equal cmp k S = [] -> Permutation S (below cmp k S ++ above cmp k S).
Proof.
  intros _. unfold equal, below, above. induction S as [|x S IH]; intros H; [reflexivity|]. cbn [filter] in *. destruct (Z.lt_trichotomy (cmp k (snd x)) 0) as [X|[X|X]].
  - rewrite (proj2 (Z.eqb_neq _ _)) in H by lia. rewrite (proj2 (gtb_f _)) by lia. rewrite (proj2 (Z.ltb_lt _ _)) by lia. rewrite (IH H) at 1. perm.
  - rewrite (proj2 (Z.eqb_eq _ _) X) in H. discriminate.
  - rewrite (proj2 (Z.eqb_neq _ _)) in H by lia. rewrite (proj2 (gtb _)) by lia. rewrite (proj2 (Z.ltb_ge _ _)) by lia. rewrite (IH H) at 1. perm.
Qed.
Lemma step m S c : NoDup (map fst ES) -> length ES < fuel -> inv m S -> allowed ES S c -> exists m', do_call pick cmp fuel m c = Ok (fst (spec cmp ES S c), m') /\ inv m' (snd (spec cmp ES S c)).
Proof.
  intros ND F (t & R & TR & HS & P & SS) AL. subst S.
  assert (FS : size t < fuel). { rewrite size_ino. apply Permutation_length in P. rewrite app_length in P. lia. }
  assert (FL : size t <= fuel) by lia.
  assert (KI : forall e, In e (map fst ES) -> In (e, key_of ES e) (ino t ++ dm R)). { intros e J. apply (Permutation_in _ (Permutation_sym P)). now apply in_key. }
  destruct c as [e|e|e|e| | |]; cbn [do_call spec allowed] in *.
  - destruct AL as [J NJ]. pose proof (KI e J) as K. apply in_app_or in K as [K|K]; [exfalso; apply NJ; now apply (in_map fst) in K|]. unfold dm in K. apply in_map_iff in K as ([x n] & X & K). cbn [fst snd] in X. assert (x = e) by congruence. subst x. assert (KN : key n = key_of ES e) by congruence. rewrite <- KN. apply in_split in K as (R1 & R2 & ->).
    assert (T1 : tre m t ((e, n) :: R1 ++ R2)). { destruct TR as [O H]. split; [|exact H]. apply (owns_perm _ _ _ O). perm. }
    assert (P1 : Permutation (ino t ++ dm ((e, n) :: R1 ++ R2)) ES). { rewrite <- P. unfold dm. rewrite (map_app _ R1). cbn [map fst snd]. rewrite map_app. perm. }
    pose proof (insert_ok _ _ _ _ _ T1 FL SS) as H. destruct (equal cmp (key n) (ino t)) as [|y ys] eqn:EQ; destruct H as (m' & t' & E1 & T2 & I1); unfold one; rewrite E1; cbn [obind fst snd]; exists m'; (split; [reflexivity|]).
    + exists t', (R1 ++ R2). split; [exact T2|]. split; [exact I1|]. split; [|now apply sorted_insert]. rewrite <- P1, I1. rewrite (parts_perm _ _ SS EQ) at 3. unfold dm. cbn [map fst snd]. perm.
    + exists t', ((e, n) :: R1 ++ R2). split; [exact T2|]. split; [exact I1|]. rewrite I1. split; [exact P1|exact SS].
  - pose proof (remove_ok _ _ _ _ _ TR FL (KI e AL) SS) as H. destruct (equal cmp (key_of ES e) (ino t)) as [|y ys] eqn:EQ.
    + destruct H as (m' & t' & E1 & T2 & I1). unfold one. rewrite E1. cbn [obind fst snd]. exists m'. split; [reflexivity|]. exists t', R. rewrite I1. auto.
    + destruct H as (m' & t' & n & E1 & T2 & KN & I1 & P1). unfold one. rewrite E1. cbn [obind fst snd]. exists m'. split; [reflexivity|]. exists t', ((fst y, n) :: R). split; [exact T2|]. split; [exact I1|]. split; [|now apply sorted_remove]. rewrite <- P, P1. unfold dm. cbn [map fst snd]. rewrite KN. destruct y as [y ky]. cbn [fst snd]. perm.
  - destruct (find_ok _ _ _ _ _ TR FL (KI e AL) SS) as (m' & t' & E1 & T2 & I1). unfold one. rewrite E1. cbn [obind fst snd]. exists m'. split; [reflexivity|]. exists t', R. rewrite I1. auto.
  - apply in_map_iff in AL as ([x k] & Ex & J). cbn [fst] in Ex. subst x. assert (KE : key_of ES e = k). { apply key_uniq; [exact ND|]. apply (Permutation_in _ P). apply in_or_app. now left. } rewrite KE. destruct (next_ok _ _ _ _ _ TR FL J SS) as (m' & t' & E1 & T2 & I1). unfold one. rewrite E1. cbn [obind fst snd]. exists m'. split; [reflexivity|]. exists t', R. rewrite I1. auto.
  - destruct (minmax_ok m t R (-1) TR FL (or_introl eq_refl)) as (m' & t' & E1 & T2 & I1). unfold one. rewrite E1. cbn [obind fst snd]. exists m'. split; [reflexivity|]. exists t', R. rewrite I1. auto.
  - destruct (minmax_ok m t R 1 TR FL (or_intror eq_refl)) as (m' & t' & E1 & T2 & I1). unfold one. rewrite E1. cbn [obind fst snd]. exists m'. split; [reflexivity|]. exists t', R. rewrite I1. auto.
  - destruct (foreach_ok _ _ _ TR FS SS) as (m' & t' & E1 & T2 & I1). rewrite E1. exists m'. split; [reflexivity|]. exists t', R. cbn [snd]. rewrite I1. auto.
Qed.
Lemma steps l : NoDup (map fst ES) -> length ES < fuel -> forall m S, inv m S -> history cmp ES S l -> exists m', calls pick cmp fuel m l = Ok (fst (answers cmp ES S l), m') /\ inv m' (snd (answers cmp ES S l)).
Proof.
  intros ND F. induction l as [|c l IH]; intros m S V H; [exists m; auto|]. destruct H as [H1 H2]. destruct (step m S c ND F V H1) as (m1 & E1 & V1). cbn [calls answers]. rewrite E1. cbn [obind]. destruct (spec cmp ES S c) as [a S1]. cbn [fst snd] in *. destruct (IH _ _ V1 H2) as (m2 & E2 & V2). rewrite E2. cbn [obind]. exists m2. destruct (answers cmp ES S1 l). auto.
Qed.
End O.
Lemma elements_ok pick : good pick -> forall ks h L, owns h L -> exists B, owns (snd (elements pick h ks)) (B ++ L) /\ dm B = rev (combine (fst (elements pick h ks)) ks) /\ length (fst (elements pick h ks)) = length ks.
Proof.
  intros G. induction ks as [|v ks IH]; intros h L O; [exists []; auto|]. cbn [elements]. destruct (owns_new pick h (mknode 0 0 v) L G O) as (e & h1 & E1 & O1). rewrite E1. destruct (IH _ _ O1) as (B & O2 & D & LE). destruct (elements pick h1 ks) as [es h2]. cbn [fst snd] in *. exists (B ++ [(e, mknode 0 0 v)]). split; [apply (owns_perm _ _ _ O2); perm|]. split; [|cbn [length]; congruence]. unfold dm in *. rewrite map_app. cbn [map fst snd key combine rev]. now rewrite D.
Qed.
