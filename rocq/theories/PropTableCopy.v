(** C20: copying into a table that allows duplicate keys, exactly: whatever the two tables hold, the copied bindings come before those that were there, and of several bindings of the same key the oldest is found. *)
From Verif Require Import Prelude TableModel TableProofs TableCopy.
Local Open Scope Z_scope.
Theorem C20_copy_dup_exact : forall (K D : Type) (hash : K -> Z) (cmp : K -> K -> bool) t1 l1 t2 l2, holds K D hash t1 l1 -> holds K D hash t2 l2 -> tdup t2 = true ->
  exists t2', table_copy hash cmp t1 t2 = Ok (match l1 with [] => 0 | _ => 1 end, t2') /\ forall k, table_get K D hash cmp t2' k = Ok (lookup K D hash cmp (rev l1 ++ l2) k).
Proof.
  intros K D hash cmp t1 l1 t2 l2 H1 H2 Du. destruct (copy_ok K D hash cmp t1 l1 t2 l2 H1 H2) as (t' & E1 & E2). rewrite Du in E2. exists t'. split; [exact E1|].
  intros k. rewrite (get_ok K D hash cmp t' _ k E2). rewrite set_all_dup. f_equal. rewrite !(lookup_filter K D hash cmp).
  assert (R : forall (A : Type) (f : A -> bool) l, filter f (rev l) = rev (filter f l)).
  { clear. intros A f l. induction l as [|x l IH]; [reflexivity|]. cbn [rev filter]. rewrite filter_app, IH. cbn [filter]. destruct (f x); [reflexivity|apply app_nil_r]. }
  rewrite !filter_app, !R. rewrite (all_nodes_order K D hash cmp t1 l1 k H1). reflexivity.
Qed.
(** so a copy of a copy answers as the original did *)
Theorem C20_copy_dup_twice : forall (K D : Type) (hash : K -> Z) (cmp : K -> K -> bool) t1 l1 t2, holds K D hash t1 l1 -> holds K D hash t2 [] -> tdup t2 = true ->
  (forall k, table_get K D hash cmp t1 k = Ok (lookup K D hash cmp l1 k)) /\
  exists r t2' l2', table_copy hash cmp t1 t2 = Ok (r, t2') /\ holds K D hash t2' l2' /\
    forall t3, holds K D hash t3 [] -> tdup t3 = true -> exists r' t3', table_copy hash cmp t2' t3 = Ok (r', t3') /\ forall k, table_get K D hash cmp t3' k = table_get K D hash cmp t1 k.
Proof.
  intros K D hash cmp t1 l1 t2 H1 H2 Du. split; [intros k; exact (get_ok K D hash cmp t1 l1 k H1)|]. destruct (copy_ok K D hash cmp t1 l1 t2 [] H1 H2) as (t' & E1 & E2). do 3 eexists. split; [exact E1|]. split; [exact E2|].
  intros t3 H3 D3. rewrite Du in E2. rewrite set_all_dup, app_nil_r in E2. destruct (C20_copy_dup_exact K D hash cmp t' _ t3 [] E2 H3 D3) as (t3' & E3 & G). do 2 eexists. split; [exact E3|]. intros k. rewrite G, app_nil_r, rev_involutive, (lookup_nodes K D hash cmp t1 l1 k H1). symmetry. exact (get_ok K D hash cmp t1 l1 k H1).
Qed.
(** a table with two bindings of key 1 (20 the newer) and its copy, which answers 10 *)
Definition eh (k : Z) := Z.abs k mod 2 ^ 32.
Example C20_copy_dup_exact_ex : exists t t2, holds Z Z eh t [(1, 20); (1, 10)] /\ holds Z Z eh t2 [] /\ tdup t2 = true /\ lookup Z Z eh Z.eqb (rev [(1, 20); (1, 10)] ++ []) 1 = Some 10.
Proof.
  assert (H0 : holds Z Z eh (table_init Z Z true true 4) []).
  { assert (HH : forall k, 0 <= eh k < 2 ^ 32) by (intros k; unfold eh; apply Z.mod_pos_bound; lia). refine (init_bounds Z Z eh true true (2 ^ 2) 2 _ (hint_good 2 _) HH); [split; [reflexivity|lia]|lia]. }
  destruct (set_ok Z Z eh Z.eqb _ [] 1 10 H0) as (t1 & E1 & H1 & D1). destruct (set_ok Z Z eh Z.eqb t1 _ 1 20 H1) as (t2 & E2 & H2 & D2).
  exists t2, (table_init Z Z true true 4). split; [|split; [exact H0|split; reflexivity]].
  change (snd (ref_set Z Z eh Z.eqb (tdup (table_init Z Z true true 4)) [] 1 10)) with [(1, 10)] in *. rewrite D1 in H2. exact H2.
Qed.
Print Assumptions C20_copy_dup_exact. Print Assumptions C20_copy_dup_twice.
