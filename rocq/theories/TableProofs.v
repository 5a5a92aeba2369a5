From Verif Require Import Prelude HashModel HashProofs TableModel PropHash.
From Coq Require Import Permutation.
Open Scope Z_scope.

(** ---- sizes ---- *)
Definition good_size (nb b : Z) : Prop := nb = 2 ^ b /\ 1 <= b < 32.
Lemma pick_good hint : 0 <= hint < 2147483648 -> ~ (32768 <= hint < 65535) ->
  exists b, good_size (num_buckets false hint) b /\ nbits ((num_buckets false hint - 1) mod 2 ^ 64) = b.
Proof.
  intros H1 H2. unfold num_buckets, powers_of_2. cbn [pick_size].
  repeat match goal with |- context [if ?p >? hint then _ else _] => destruct (p >? hint) eqn:? end;
    try (exfalso; lia); eexists; (split; [split; [|split]|vm_compute; reflexivity]); vm_compute; try reflexivity; discriminate.
Qed.
Lemma nbits_pow_all : forallb (fun b => nbits ((2 ^ b - 1) mod 2 ^ 64) =? b) (map Z.of_nat (seq 1 31)) = true.
Proof. vm_compute. reflexivity. Qed.
Lemma hint_good b : 1 <= b < 32 -> nbits ((num_buckets true (2 ^ b) - 1) mod 2 ^ 64) = b.
Proof.
  intros H. pose proof nbits_pow_all as F. rewrite forallb_forall in F. specialize (F b).
  rewrite Z.eqb_eq in F. apply F. apply in_map_iff. exists (Z.to_nat b). split; [lia|]. apply in_seq. lia.
Qed.
Lemma sub32_range h b : 0 <= h < 2 ^ 32 -> 1 <= b < 32 -> 0 <= hash_sub32_mask h b < 2 ^ b.
Proof. intros H B. destruct (C06_fold_sub32 h b) as [? ?]; lia. Qed.

(** ---- reference: list of bindings, most recent first ---- *)
Section T.
Variable K D : Type.
Variable hash : K -> Z.
Variable cmp : K -> K -> bool.

(** the keys the table identifies: equal hash and equal according to the comparison callback *)
Definition same (k k' : K) : bool := (hash k =? hash k') && cmp k k'.
Fixpoint lookup (l : list (K * D)) (k : K) : option D :=
  match l with [] => None | (k', d) :: r => if same k' k then Some d else lookup r k end.

Definition mk (e : K * D) : node K D := mknode (fst e) (snd e) (hash (fst e)).
Definition in_slot (t : table K D) (i : nat) (e : K * D) : bool := Nat.eqb (slot K D hash t (fst e)) i.
Definition in_bounds (t : table K D) : Prop := forall k, (slot K D hash t k < length (tbuckets t))%nat.
(** the table holds exactly the bindings l (in each bucket: most recent first) *)
Definition holds (t : table K D) (l : list (K * D)) : Prop :=
  in_bounds t /\
  forall i, (i < length (tbuckets t))%nat -> nth_error (tbuckets t) i = Some (map mk (filter (in_slot t i) l)).

Lemma init_bounds use_hint dup hint b : good_size (num_buckets use_hint hint) b -> nbits ((num_buckets use_hint hint - 1) mod 2 ^ 64) = b ->
  (forall k, 0 <= hash k < 2 ^ 32) -> holds (table_init K D use_hint dup hint) [].
Proof.
  clear cmp. intros [G1 G2] N H. split.
  - intros k. unfold table_init, slot. cbn [tbits tbuckets]. rewrite N, repeat_length, G1. pose proof (sub32_range (hash k) b (H k) G2). lia.
  - intros i Hi. unfold table_init in *. cbn [tbits tbuckets] in *. rewrite repeat_length in Hi.
    cbn [filter map]. apply nth_error_repeat. exact Hi.
Qed.

Lemma hit_mk e k : hit K D hash cmp (mk e) k = same (fst e) k.
Proof. reflexivity. Qed.
Lemma same_slot t k k' : same k k' = true -> slot K D hash t k = slot K D hash t k'.
Proof. unfold same, slot. intros H. apply andb_prop in H. destruct H as [H _]. apply Z.eqb_eq in H. now rewrite H. Qed.

Lemma find_lookup t l k : 
  match find_node K D hash cmp (map mk (filter (in_slot t (slot K D hash t k)) l)) k with Some n => Some (ndatum n) | None => None end = lookup l k.
Proof.
  induction l as [|[k' d] l IH]; [reflexivity|]. cbn [filter lookup]. unfold in_slot at 1. cbn [fst].
  destruct (Nat.eqb (slot K D hash t k') (slot K D hash t k)) eqn:E.
  - cbn [map find_node]. rewrite hit_mk. cbn [fst]. destruct (same k' k); [reflexivity|exact IH].
  - destruct (same k' k) eqn:S; [|exact IH]. apply (same_slot t) in S. apply Nat.eqb_neq in E. congruence.
Qed.

Lemma chain_ok t l k : holds t l -> chain_at K D hash t k = Ok (map mk (filter (in_slot t (slot K D hash t k)) l)).
Proof. intros [B H]. unfold chain_at. now rewrite (H _ (B k)). Qed.

Lemma get_ok t l k : holds t l -> table_get K D hash cmp t k = Ok (lookup l k).
Proof. intros H. unfold table_get. rewrite (chain_ok t l k H). cbn [obind]. now rewrite find_lookup. Qed.

(** replacing one bucket *)
Lemma holds_upd t l l' k : holds t l ->
  (forall i, i <> slot K D hash t k -> filter (in_slot t i) l' = filter (in_slot t i) l) ->
  holds (mktable (tbits t) (tdup t) (upd (tbuckets t) (slot K D hash t k) (map mk (filter (in_slot t (slot K D hash t k)) l')))) l'.
Proof.
  intros [B H] E. split.
  - intros k'. cbn [tbuckets]. rewrite upd_length. exact (B k').
  - intros i Hi. cbn [tbuckets] in *. rewrite upd_length in Hi. rewrite upd_nth_error.
    change (filter (in_slot (mktable (tbits t) (tdup t) (upd (tbuckets t) (slot K D hash t k) (map mk (filter (in_slot t (slot K D hash t k)) l')))) i) l')
      with (filter (in_slot t i) l').
    destruct (Nat.eqb_spec i (slot K D hash t k)) as [->|N].
    + pose proof (B k) as Bk. apply Nat.ltb_lt in Bk. now rewrite Bk.
    + rewrite (E i N). now apply H.
Qed.

(** zt_table_set *)
Definition ref_set (dup : bool) (l : list (K * D)) (k : K) (d : D) : Z * list (K * D) :=
  match (if dup then None else lookup l k) with Some _ => (1, l) | None => (0, (k, d) :: l) end.

Lemma set_ok t l k d : holds t l ->
  exists t', table_set K D hash cmp t k d = Ok (fst (ref_set (tdup t) l k d), t') /\ holds t' (snd (ref_set (tdup t) l k d)) /\ tdup t' = tdup t.
Proof.
  intros H. unfold table_set. rewrite (chain_ok t l k H). cbn [obind]. unfold ref_set.
  pose proof (find_lookup t l k) as F.
  destruct (tdup t) eqn:Du.
  - eexists. split; [reflexivity|]. cbn [fst snd]. split; [|reflexivity].
    pose proof (holds_upd t l ((k, d) :: l) k H) as X. rewrite Du in X.
    assert (S : in_slot t (slot K D hash t k) (k, d) = true) by (unfold in_slot; cbn; apply Nat.eqb_refl).
    cbn [filter] in X. rewrite S in X. apply X. intros i N. unfold in_slot at 1. cbn [fst]. apply not_eq_sym, Nat.eqb_neq in N. now rewrite N.
  - destruct (find_node K D hash cmp _ k) eqn:Fn.
    + rewrite <- F. eexists. split; [reflexivity|]. auto.
    + rewrite <- F. eexists. split; [reflexivity|]. cbn [fst snd]. split; [|reflexivity].
      pose proof (holds_upd t l ((k, d) :: l) k H) as X. rewrite Du in X.
      assert (S : in_slot t (slot K D hash t k) (k, d) = true) by (unfold in_slot; cbn; apply Nat.eqb_refl).
      cbn [filter] in X. rewrite S in X. apply X. intros i N. unfold in_slot at 1. cbn [fst]. apply not_eq_sym, Nat.eqb_neq in N. now rewrite N.
Qed.

(** zt_table_del: l = l1 ++ (k', d) :: l2 with (k', d) the binding of k *)
Lemma lookup_split l k : match lookup l k with
  | Some d => exists l1 k' l2, l = l1 ++ (k', d) :: l2 /\ same k' k = true /\ lookup l1 k = None
  | None => True end.
Proof.
  induction l as [|[k' d] l IH]; [exact I|]. cbn [lookup]. destruct (same k' k) eqn:S.
  - exists [], k', l. auto.
  - destruct (lookup l k); [|exact I]. destruct IH as (l1 & k2 & l2 & -> & S2 & N). exists ((k', d) :: l1), k2, l2. cbn [lookup app]. rewrite S. auto.
Qed.
Lemma del_loop_ok f : forall c1 n c2 k, (forall m, In m c1 -> hit K D hash cmp m k = false) -> hit K D hash cmp n k = true ->
  del_loop K D hash cmp f (c1 ++ n :: c2) k = Some (ndatum n, f :: c2).
Proof.
  induction c1 as [|m c1 IH]; intros n c2 k H Hn; cbn [app del_loop].
  - now rewrite Hn.
  - rewrite (H m (or_introl eq_refl)). apply IH; [intros x Hx; apply H; now right|exact Hn].
Qed.
Lemma del_loop_none f : forall c k, (forall m, In m c -> hit K D hash cmp m k = false) -> del_loop K D hash cmp f c k = None.
Proof. induction c as [|m c IH]; intros k H; cbn; [reflexivity|]. rewrite (H m (or_introl eq_refl)). apply IH. intros x Hx. apply H. now right. Qed.
Lemma lookup_none l k : lookup l k = None -> forall e, In e l -> same (fst e) k = false.
Proof.
  induction l as [|[k' d] l IH]; intros H e He; [easy|]. cbn [lookup] in H. destruct (same k' k) eqn:S; [discriminate|].
  destruct He as [<-|He]; [exact S|]. now apply IH.
Qed.

(** entries of l1 that share the bucket of k *)
Definition mates (t : table K D) (k : K) (l : list (K * D)) : list (K * D) := filter (in_slot t (slot K D hash t k)) l.
(** what deletion leaves of the more recent bindings l1: of those in k's bucket only the most recent one *)
Fixpoint keep_first (t : table K D) (k : K) (seen : bool) (l : list (K * D)) : list (K * D) :=
  match l with
  | [] => []
  | e :: r => if in_slot t (slot K D hash t k) e then (if seen then keep_first t k true r else e :: keep_first t k true r)
              else e :: keep_first t k seen r
  end.
Lemma keep_first_other t k i : i <> slot K D hash t k -> forall l seen, filter (in_slot t i) (keep_first t k seen l) = filter (in_slot t i) l.
Proof.
  intros N. induction l as [|e l IH]; intros seen; [reflexivity|]. cbn [keep_first filter].
  destruct (in_slot t (slot K D hash t k) e) eqn:E.
  - assert (O : in_slot t i e = false). { unfold in_slot in *. apply Nat.eqb_eq in E. apply Nat.eqb_neq. congruence. }
    rewrite O. destruct seen; [apply IH|]. cbn [filter]. rewrite O. apply IH.
  - cbn [filter]. rewrite IH. reflexivity.
Qed.
Lemma keep_first_seen t k : forall l, mates t k (keep_first t k true l) = [].
Proof.
  unfold mates. induction l as [|e l IH]; [reflexivity|]. cbn [keep_first]. destruct (in_slot t (slot K D hash t k) e) eqn:E; [exact IH|].
  cbn [filter]. now rewrite E.
Qed.
Lemma keep_first_same t k : forall l, mates t k (keep_first t k false l) = firstn 1 (mates t k l).
Proof.
  unfold mates. induction l as [|e l IH]; [reflexivity|]. cbn [keep_first filter]. destruct (in_slot t (slot K D hash t k) e) eqn:E.
  - cbn [filter firstn]. rewrite E. f_equal. apply (keep_first_seen t k).
  - cbn [filter]. rewrite E. exact IH.
Qed.
Lemma keep_first_id t k : forall l, (length (mates t k l) <= 1)%nat -> keep_first t k false l = l.
Proof.
  clear cmp. unfold mates. induction l as [|e l IH]; intros H; [reflexivity|]. cbn [keep_first filter] in *. destruct (in_slot t (slot K D hash t k) e) eqn:E.
  - f_equal. cbn [length] in H. assert (Z0 : filter (in_slot t (slot K D hash t k)) l = []) by (destruct (filter _ l); [reflexivity|cbn in H; lia]).
    clear - Z0. induction l as [|e l IH]; [reflexivity|]. cbn [filter keep_first] in *. destruct (in_slot t (slot K D hash t k) e); [discriminate|]. f_equal. now apply IH.
  - f_equal. now apply IH.
Qed.

Lemma del_found t l1 k' d l2 k : holds t (l1 ++ (k', d) :: l2) -> same k' k = true -> lookup l1 k = None ->
  exists t', table_del K D hash cmp t k = Ok (Some d, t') /\ holds t' (keep_first t k false l1 ++ l2) /\ tdup t' = tdup t.
Proof.
  intros H S N. unfold table_del. rewrite (chain_ok t _ k H). cbn [obind].
  assert (Sl : in_slot t (slot K D hash t k) (k', d) = true) by (unfold in_slot; cbn [fst]; apply Nat.eqb_eq; now apply same_slot).
  assert (E : del_chain K D hash cmp (map mk (filter (in_slot t (slot K D hash t k)) (l1 ++ (k', d) :: l2))) k =
     Some (d, map mk (filter (in_slot t (slot K D hash t k)) (keep_first t k false l1 ++ l2)))).
  { rewrite !filter_app. cbn [filter]. rewrite Sl. fold (mates t k l1). change (filter (in_slot t (slot K D hash t k)) (keep_first t k false l1)) with (mates t k (keep_first t k false l1)).
    rewrite keep_first_same. rewrite !map_app. cbn [map].
    assert (Nm : forall e, In e (mates t k l1) -> same (fst e) k = false).
    { intros e He. apply filter_In in He. apply (lookup_none l1 k N e). apply He. }
    destruct (mates t k l1) as [|m ms]; cbn [map app firstn del_chain].
    - rewrite hit_mk. cbn [fst]. rewrite S. reflexivity.
    - rewrite hit_mk, (Nm m (or_introl eq_refl)). rewrite del_loop_ok.
      + reflexivity.
      + intros x Hx. apply in_map_iff in Hx. destruct Hx as (e & <- & He). rewrite hit_mk. apply Nm. now right.
      + rewrite hit_mk. exact S. }
  rewrite E. eexists. split; [reflexivity|]. split; [|reflexivity]. apply (holds_upd t (l1 ++ (k', d) :: l2)); [exact H|].
  intros i Ni. rewrite !filter_app. rewrite keep_first_other by exact Ni. cbn [filter].
  assert (O : in_slot t i (k', d) = false). { unfold in_slot in *. apply Nat.eqb_eq in Sl. apply Nat.eqb_neq. congruence. }
  now rewrite O.
Qed.
Lemma del_missing t l k : holds t l -> lookup l k = None -> table_del K D hash cmp t k = Ok (None, t).
Proof.
  intros H N. unfold table_del. rewrite (chain_ok t l k H). cbn [obind].
  assert (A : forall m, In m (map mk (filter (in_slot t (slot K D hash t k)) l)) -> hit K D hash cmp m k = false).
  { intros m Hm. apply in_map_iff in Hm. destruct Hm as (e & <- & He). rewrite hit_mk. apply filter_In in He. apply (lookup_none l k N e). apply He. }
  destruct (map mk (filter (in_slot t (slot K D hash t k)) l)) as [|n c]; [reflexivity|]. cbn [del_chain].
  rewrite (A n (or_introl eq_refl)). rewrite del_loop_none; [reflexivity|]. intros m Hm. apply A. now right.
Qed.

(** ---- histories ---- *)
Inductive op := Oset (k : K) (d : D) | Oget (k : K) | Odel (k : K).
Inductive res := Rset (r : Z) | Rget (d : option D).
Definition step (t : table K D) (o : op) : outcome (res * table K D) :=
  match o with
  | Oset k d => ' (r, t') <- table_set K D hash cmp t k d ;; Ok (Rset r, t')
  | Oget k => r <- table_get K D hash cmp t k ;; Ok (Rget r, t)
  | Odel k => ' (r, t') <- table_del K D hash cmp t k ;; Ok (Rget r, t')
  end.
Fixpoint run (t : table K D) (l : list op) : outcome (list res * table K D) :=
  match l with [] => Ok ([], t) | o :: r => ' (x, t1) <- step t o ;; ' (xs, t2) <- run t1 r ;; Ok (x :: xs, t2) end.

Fixpoint remove_first (l : list (K * D)) (k : K) : list (K * D) :=
  match l with [] => [] | e :: r => if same (fst e) k then r else e :: remove_first r k end.
Definition ref_step (dup : bool) (l : list (K * D)) (o : op) : res * list (K * D) :=
  match o with
  | Oset k d => (Rset (fst (ref_set dup l k d)), snd (ref_set dup l k d))
  | Oget k => (Rget (lookup l k), l)
  | Odel k => (Rget (lookup l k), remove_first l k)
  end.
Fixpoint ref_run (dup : bool) (l : list (K * D)) (ops : list op) : list res * list (K * D) :=
  match ops with [] => ([], l) | o :: r => let '(x, l1) := ref_step dup l o in let '(xs, l2) := ref_run dup l1 r in (x :: xs, l2) end.
(** bindings more recent than k's that hash to k's bucket *)
Fixpoint before (l : list (K * D)) (k : K) : list (K * D) :=
  match l with [] => [] | e :: r => if same (fst e) k then [] else e :: before r k end.
Definition bucket_of (bits : Z) (k : K) : Z := hash_sub32_mask (hash k) bits.
Definition clashes (bits : Z) (l : list (K * D)) (k : K) : nat :=
  length (filter (fun e => Z.to_nat (bucket_of bits (fst e)) =? Z.to_nat (bucket_of bits k))%nat (before l k)).
(** every delete of a present key finds at most one more recent binding in the same bucket *)
Fixpoint deletes_ok (bits : Z) (dup : bool) (l : list (K * D)) (ops : list op) : Prop :=
  match ops with
  | [] => True
  | o :: r => match o with Odel k => lookup l k <> None -> (clashes bits l k <= 1)%nat | _ => True end /\ deletes_ok bits dup (snd (ref_step dup l o)) r
  end.

Lemma before_split l1 k' d l2 k : lookup l1 k = None -> same k' k = true -> before (l1 ++ (k', d) :: l2) k = l1 /\ remove_first (l1 ++ (k', d) :: l2) k = l1 ++ l2.
Proof.
  induction l1 as [|[k1 d1] l1 IH]; intros N S; cbn [app before remove_first fst].
  - rewrite S. auto.
  - cbn [lookup] in N. destruct (same k1 k) eqn:E; [discriminate|]. destruct (IH N S) as [-> ->]. auto.
Qed.
Lemma lookup_none_remove l k : lookup l k = None -> remove_first l k = l.
Proof. induction l as [|[k1 d1] l IH]; intros N; [reflexivity|]. cbn [lookup remove_first fst] in *. destruct (same k1 k); [discriminate|]. now rewrite IH. Qed.

Lemma step_ok t l o : holds t l -> (match o with Odel k => lookup l k <> None -> (clashes (tbits t) l k <= 1)%nat | _ => True end) ->
  exists t', step t o = Ok (fst (ref_step (tdup t) l o), t') /\ holds t' (snd (ref_step (tdup t) l o)) /\ tdup t' = tdup t /\ tbits t' = tbits t.
Proof.
  intros H P. destruct o as [k d|k|k]; cbn [step ref_step fst snd].
  - destruct (set_ok t l k d H) as (t' & E1 & E2 & E3). rewrite E1. cbn [obind]. exists t'. repeat split; auto; try apply E2.
    unfold table_set in E1. rewrite (chain_ok t l k H) in E1. cbn [obind] in E1.
    destruct (if tdup t then None else find_node K D hash cmp (map mk (filter (in_slot t (slot K D hash t k)) l)) k); [assert (t' = t) by congruence; subst; reflexivity|].
    assert (Et : t' = mktable (tbits t) (tdup t) (upd (tbuckets t) (slot K D hash t k) (mknode k d (hash k) :: map mk (filter (in_slot t (slot K D hash t k)) l)))) by congruence.
    rewrite Et. reflexivity.
  - rewrite (get_ok t l k H). cbn [obind]. exists t. auto.
  - pose proof (lookup_split l k) as L. destruct (lookup l k) as [d|] eqn:Q.
    + destruct L as (l1 & k' & l2 & -> & S & N). destruct (before_split l1 k' d l2 k N S) as [B R]. rewrite R.
      destruct (del_found t l1 k' d l2 k H S N) as (t' & E1 & E2 & E3). rewrite E1. cbn [obind]. exists t'. split; [reflexivity|].
      rewrite keep_first_id in E2.
      * split; [exact E2|]. split; [exact E3|]. unfold table_del in E1. rewrite (chain_ok t _ k H) in E1. cbn [obind] in E1.
        destruct (del_chain K D hash cmp _ k) as [[d' c']|]; [|discriminate].
        assert (Et : t' = mktable (tbits t) (tdup t) (upd (tbuckets t) (slot K D hash t k) c')) by congruence. rewrite Et. reflexivity.
      * assert (P' := P ltac:(discriminate)). unfold clashes in P'. rewrite B in P'. exact P'.
    + rewrite (del_missing t l k H Q). cbn [obind]. rewrite lookup_none_remove by exact Q. exists t. auto.
Qed.
Lemma run_ok : forall ops t l, holds t l -> deletes_ok (tbits t) (tdup t) l ops ->
  exists t', run t ops = Ok (fst (ref_run (tdup t) l ops), t') /\ holds t' (snd (ref_run (tdup t) l ops)).
Proof.
  induction ops as [|o ops IH]; intros t l H P; [cbn; eauto|]. cbn [run ref_run]. destruct P as [P1 P2].
  destruct (step_ok t l o H P1) as (t1 & E1 & E2 & E3 & E4). rewrite E1. cbn [obind].
  destruct (ref_step (tdup t) l o) as [x l1] eqn:Q. cbn [fst snd] in *.
  rewrite <- E3, <- E4 in P2. destruct (IH t1 l1 E2 P2) as (t2 & R1 & R2). rewrite R1. cbn [obind]. rewrite E3 in *.
  destruct (ref_run (tdup t) l1 ops) as [xs l2]. cbn [fst snd] in *. eauto.
Qed.

(** ---- iteration ---- *)
Definition binding (n : node K D) : K * D := (nkey n, ndatum n).
Lemma binding_mk e : binding (mk e) = e.
Proof. now destruct e. Qed.

Lemma filter_partition {A} (f : A -> nat) : forall n (l : list A), Forall (fun x => f x < n)%nat l ->
  Permutation (concat (map (fun i => filter (fun x => Nat.eqb (f x) i) l) (seq 0 n))) l.
Proof.
  intros n l H. induction H as [|x l Hx Hl IH].
  - cbn [filter]. induction (seq 0 n); cbn; [constructor|assumption].
  - assert (G : forall s m, In m s -> NoDup s -> f x = m -> Permutation (concat (map (fun i => filter (fun y => Nat.eqb (f y) i) (x :: l)) s)) (x :: concat (map (fun i => filter (fun y => Nat.eqb (f y) i) l) s))).
    { clear - n. induction s as [|i s IHs]; intros m Hm Nd E; [easy|]. cbn [map concat filter]. inversion Nd as [|? ? N1 N2]; subst.
      destruct (Nat.eqb_spec (f x) i) as [Ei|Ni].
      - cbn [app]. apply perm_skip. apply Permutation_app_head.
        assert (Q : map (fun i0 => if Nat.eqb (f x) i0 then x :: filter (fun y => Nat.eqb (f y) i0) l else filter (fun y => Nat.eqb (f y) i0) l) s = map (fun i0 => filter (fun y => Nat.eqb (f y) i0) l) s).
        { apply map_ext_in. intros j Hj. destruct (Nat.eqb_spec (f x) j); [|reflexivity]. exfalso. apply N1. congruence. }
        cbn [filter]. rewrite Q. apply Permutation_refl.
      - destruct Hm as [Hm|Hm]; [congruence|]. specialize (IHs _ Hm N2 eq_refl). cbn [filter] in IHs. rewrite IHs.
        apply Permutation_sym, Permutation_middle. }
    rewrite (G (seq 0 n) (f x)); [constructor; exact IH| |apply seq_NoDup|reflexivity]. apply in_seq. lia.
Qed.
Lemma nth_error_seq_map {A} (f : nat -> A) (l : list A) : (forall i, (i < length l)%nat -> nth_error l i = Some (f i)) -> l = map f (seq 0 (length l)).
Proof.
  intros H. apply nth_error_ext. intros i. destruct (Nat.lt_ge_cases i (length l)) as [L|L].
  - rewrite (H i L). symmetry. apply map_nth_error. rewrite (nth_error_nth' _ 0%nat) by (rewrite seq_length; exact L). now rewrite seq_nth.
  - transitivity (@None A); [|symmetry]; apply nth_error_None; [exact L|rewrite map_length, seq_length; exact L].
Qed.
Lemma all_nodes_perm t l : holds t l -> Permutation (map binding (all_nodes t)) l.
Proof.
  intros [B H]. unfold all_nodes. rewrite (nth_error_seq_map _ _ H). rewrite concat_map, map_map.
  assert (E : map (fun x => map binding (map mk (filter (in_slot t x) l))) (seq 0 (length (tbuckets t))) = map (fun i => filter (fun e => Nat.eqb (slot K D hash t (fst e)) i) l) (seq 0 (length (tbuckets t)))).
  { apply map_ext. intros i. rewrite map_map. rewrite (map_ext _ (fun x => x)) by apply binding_mk. now rewrite map_id. }
  rewrite E. apply filter_partition. apply Forall_forall. intros e _. apply B.
Qed.
(** within a bucket's worth: bindings that the table identifies keep their order *)
Lemma all_nodes_order t l k : holds t l -> filter (fun e => same (fst e) k) (map binding (all_nodes t)) = filter (fun e => same (fst e) k) l.
Proof.
  intros [B H]. unfold all_nodes. rewrite (nth_error_seq_map _ _ H). rewrite concat_map, map_map.
  assert (E : forall s, NoDup s -> (In (slot K D hash t k) s -> filter (fun e => same (fst e) k) (concat (map (fun x => map binding (map mk (filter (in_slot t x) l))) s)) = filter (fun e => same (fst e) k) l)
     /\ (~ In (slot K D hash t k) s -> filter (fun e => same (fst e) k) (concat (map (fun x => map binding (map mk (filter (in_slot t x) l))) s)) = [])).
  { assert (F : forall i, filter (fun e => same (fst e) k) (map binding (map mk (filter (in_slot t i) l))) = if Nat.eqb (slot K D hash t k) i then filter (fun e => same (fst e) k) l else []).
    { intros i. rewrite map_map. rewrite (map_ext _ (fun x => x)) by apply binding_mk. rewrite map_id. clear. induction l as [|e l IH]; [now destruct (Nat.eqb (slot K D hash t k) i)|].
      cbn [filter]. destruct (in_slot t i e) eqn:I; cbn [filter].
      - destruct (same (fst e) k) eqn:S.
        + rewrite IH. unfold in_slot in I. apply Nat.eqb_eq in I. apply (same_slot t) in S. rewrite S in I. subst i. now rewrite Nat.eqb_refl.
        + exact IH.
      - rewrite IH. destruct (same (fst e) k) eqn:S; [|reflexivity]. unfold in_slot in I. apply (same_slot t) in S. rewrite S in I. now rewrite I. }
    induction s as [|i s IH]; intros Nd; [split; [easy|reflexivity]|]. inversion Nd as [|? ? N1 N2]; subst. destruct (IH N2) as [IH1 IH2].
    cbn [map concat]. rewrite filter_app, F. split.
    - intros [->|Hin].
      + rewrite Nat.eqb_refl, IH2 by exact N1. apply app_nil_r.
      + rewrite IH1 by exact Hin. destruct (Nat.eqb_spec (slot K D hash t k) i) as [<-|]; [contradiction|reflexivity].
    - intros Hn. rewrite IH2 by (intros X; apply Hn; now right). destruct (Nat.eqb_spec (slot K D hash t k) i) as [<-|]; [exfalso; apply Hn; now left|reflexivity]. }
  apply E; [apply seq_NoDup|]. apply in_seq. pose proof (B k). lia.
Qed.

(** the callback is called on a prefix of the bindings; it stops exactly at the first non-zero result *)
Fixpoint spec_visit {S} (f : S -> K -> D -> Z * S) (l : list (K * D)) (s : S) : list (K * D) * Z * S :=
  match l with
  | [] => ([], 0, s)
  | (k, d) :: r => let '(res, s') := f s k d in if res =? 0 then let '(v, x, s2) := spec_visit f r s' in ((k, d) :: v, x, s2) else ([(k, d)], res, s')
  end.
Lemma visit_spec {S} (f : S -> K -> D -> Z * S) : forall l s, visit f l s = (snd (fst (spec_visit f (map binding l) s)), snd (spec_visit f (map binding l) s)).
Proof.
  induction l as [|n l IH]; intros s; [reflexivity|]. change (map binding (n :: l)) with ((nkey n, ndatum n) :: map binding l). cbn [visit spec_visit].
  destruct (f s (nkey n) (ndatum n)) as [r s']. destruct (r =? 0); [|reflexivity]. rewrite IH.
  destruct (spec_visit f (map binding l) s') as [[v x] s2]. reflexivity.
Qed.
Lemma visit_all {S} (f : S -> K -> D -> Z * S) : (forall s k d, fst (f s k d) = 0) -> forall l s,
  spec_visit f l s = (l, 0, fold_left (fun s e => snd (f s (fst e) (snd e))) l s).
Proof.
  intros H. induction l as [|[k d] l IH]; intros s; [reflexivity|]. cbn [spec_visit fold_left fst snd]. specialize (H s k d).
  destruct (f s k d) as [r s']. cbn [fst snd] in *. subst r. now rewrite Z.eqb_refl, IH.
Qed.

Lemma lookup_filter l k : lookup l k = match filter (fun e => same (fst e) k) l with e :: _ => Some (snd e) | [] => None end.
Proof. induction l as [|[k' d] l IH]; [reflexivity|]. cbn [lookup filter fst]. destruct (same k' k); [reflexivity|exact IH]. Qed.
End T.
