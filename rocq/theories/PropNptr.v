(** C86: nodes of zt_ipv4_tbl.c in memory.  Specification: [spec_calls A ts cs] (NptrProofs.v): the program on the tables of Ipv4Model.v, whose chains are lists and
    whose searches C29 characterises; A n is the address record of node n; [added], [named]: the nodes added to tables, and all nodes used. *)
From Verif Require Import Prelude Bits Ipv4Model NptrModel NptrProofs.
Local Open Scope Z_scope.

(** any number of tables, any program: if every node is fresh when it is added (no next, in no table), whatever the lists answer the memory answers, in
    bounded time *)
Theorem C86_fresh_partial : forall A cs sizes h rs, (forall n, In n (named cs) -> option_map snd (h n) = Some (A n)) ->
  (forall n, In n (added cs) -> exists a, h n = Some (None, a)) -> NoDup (added cs) -> spec_calls A (map tbl_init sizes) cs = Ok rs ->
  exists F, forall fuel, (F <= fuel)%nat -> do_calls fuel h (map p_init sizes) cs = Ok rs.
Proof.
  intros A cs sizes h rs NA FA ND SC. apply (calls_ok A cs h [] (map p_init sizes) (map tbl_init sizes) rs); auto.
  clear. induction sizes as [|s sizes IH]; cbn [map]; constructor; [apply init_rel|exact IH].
Qed.
Print Assumptions C86_fresh_partial.
(** a node added twice to a table: its next is itself, and a search in its chain for anything else never ends *)
Theorem C86_twice_refuted : forall size h n k nx nx' a ka m fuel, 0 <= size -> n <> k -> h n = Some (nx, a) -> h k = Some (nx', ka) -> 1 <= bitlen a <= 32 ->
  netmask (bitlen a) = Ok m -> key_of size (Z.land (a_addr ka) m) = key_of size (a_addr a) -> addr_cmp a ka = false ->
  do_calls fuel h [p_init size] [Add 0 n; Add 0 n; Search 0 k] = Loop.
Proof.
  intros size h n k nx nx' a ka m fuel S0 NK EN EK BL NM KE NC. cbn [do_calls do_call nth_error]. rewrite (add_first h size n nx a S0 EN BL). cbn [obind upd nth_error].
  rewrite (add_more h size n nx a n S0 EN BL). cbn [obind upd nth_error]. rewrite (search_tab fuel _ size (bitlen a) (Some n) k nx' ka m _ S0 BL) ; [|unfold set_next; rewrite (proj2 (Nat.eqb_neq k n)) by congruence; exact EK|exact NM|exact KE].
  rewrite (match_cycle _ n a ka); [reflexivity| |exact NC]. unfold set_next. now rewrite Nat.eqb_refl.
Qed.
Print Assumptions C86_twice_refuted.
(** a node added to a second table brings the nodes behind it in the first along (next is not cleared when the slot is empty): the second table then
    answers with a node p that was never added to it *)
Theorem C86_two_tables_refuted : forall s1 s2 h n p k nx nx' a pa ka m fuel, 0 <= s1 -> 0 <= s2 -> n <> p -> k <> n -> h n = Some (nx, a) -> h p = Some (None, pa) -> h k = Some (nx', ka) ->
  1 <= bitlen a <= 32 -> bitlen pa = bitlen a -> key_of s1 (a_addr pa) = key_of s1 (a_addr a) ->
  netmask (bitlen a) = Ok m -> key_of s2 (Z.land (a_addr ka) m) = key_of s2 (a_addr a) -> addr_cmp a ka = false -> addr_cmp pa ka = true -> (2 <= fuel)%nat ->
  do_calls fuel h [p_init s1; p_init s2] [Add 0 p; Add 0 n; Add 1 n; Search 1 k] = Ok [None; None; None; Some p].
Proof.
  intros s1 s2 h n p k nx nx' a pa ka m fuel S1 S2 NP KN EN EP EK BL BP KP NM KE NC MC FU. cbn [do_calls do_call nth_error]. rewrite (add_first h s1 p None pa S1 EP ltac:(lia)). cbn [obind upd nth_error].
  rewrite BP, KP, (add_more h s1 n nx a p S1 EN BL). cbn [obind upd nth_error]. rewrite (add_first _ s2 n (Some p) a S2); [|unfold set_next; now rewrite Nat.eqb_refl|exact BL]. cbn [obind upd nth_error].
  rewrite (search_tab fuel _ s2 (bitlen a) (Some n) k nx' ka m _ S2 BL); [|unfold set_next; rewrite (proj2 (Nat.eqb_neq k n)) by congruence; exact EK|exact NM|exact KE].
  destruct fuel as [|[|fuel]]; [lia|lia|]. cbn [p_match]. unfold set_next. rewrite Nat.eqb_refl, NC, (proj2 (Nat.eqb_neq p n)) by congruence. rewrite EP, MC. reflexivity.
Qed.
Print Assumptions C86_two_tables_refuted.
(** and a node that is added to a second table in front of another one loses the nodes behind it in the first: p is not found any more where it was added *)
Theorem C86_lost_refuted : forall s1 s2 h n p q k nx nx' a pa qa ka m fuel, 0 <= s1 -> 0 <= s2 -> n <> p -> n <> q -> k <> n -> h n = Some (nx, a) -> h p = Some (None, pa) -> h q = Some (None, qa) ->
  h k = Some (nx', ka) -> 1 <= bitlen a <= 32 -> bitlen pa = bitlen a -> bitlen qa = bitlen a -> key_of s1 (a_addr pa) = key_of s1 (a_addr a) -> key_of s2 (a_addr qa) = key_of s2 (a_addr a) ->
  netmask (bitlen a) = Ok m -> key_of s1 (Z.land (a_addr ka) m) = key_of s1 (a_addr a) -> addr_cmp a ka = false -> addr_cmp qa ka = false -> addr_cmp pa ka = true -> (3 <= fuel)%nat ->
  do_calls fuel h [p_init s1; p_init s2] [Add 0 p; Add 0 n; Search 0 k; Add 1 q; Add 1 n; Search 0 k] = Ok [None; None; Some p; None; None; None].
Proof.
  intros s1 s2 h n p q k nx nx' a pa qa ka m fuel S1 S2 NP NQ KN EN EP EQ EK BL BP BQ KP KQ NM KE NC QC MC FU. cbn [do_calls do_call nth_error]. rewrite (add_first h s1 p None pa S1 EP ltac:(lia)). cbn [obind upd nth_error].
  rewrite BP, KP, (add_more h s1 n nx a p S1 EN BL). cbn [obind upd nth_error].
  assert (K : forall s, set_next h n s a k = Some (nx', ka)) by (intros s; unfold set_next; rewrite (proj2 (Nat.eqb_neq k n)) by congruence; exact EK).
  rewrite (search_tab fuel _ s1 (bitlen a) (Some n) k nx' ka m _ S1 BL (K p) NM KE).
  destruct fuel as [|[|[|fuel]]]; [lia|lia|lia|]. cbn [p_match]. unfold set_next at 1. rewrite Nat.eqb_refl, NC. unfold set_next at 1. rewrite (proj2 (Nat.eqb_neq p n)) by congruence. rewrite EP, MC. cbn [obind].
  rewrite (add_first _ s2 q None qa S2); [|unfold set_next; rewrite (proj2 (Nat.eqb_neq q n)) by congruence; exact EQ|lia]. cbn [obind upd nth_error].
  rewrite BQ, KQ, (add_more _ s2 n (Some p) a q S2); [|unfold set_next; now rewrite Nat.eqb_refl|exact BL]. cbn [obind upd nth_error].
  rewrite (search_tab _ _ s1 (bitlen a) (Some n) k nx' ka m _ S1 BL); [|unfold set_next at 1; rewrite (proj2 (Nat.eqb_neq k n)) by congruence; apply K|exact NM|exact KE].
  cbn [p_match]. unfold set_next. rewrite !Nat.eqb_refl, NC, (proj2 (Nat.eqb_neq q n)) by congruence. rewrite EQ, QC. reflexivity.
Qed.
Print Assumptions C86_lost_refuted.

(** non-vacuity.  Node 1: 10.0.0.0/8, node 2: 20.0.0.0/8, node 3: 30.0.0.0/8, node 4: 20.1.1.1/32; tables of 128 slots (one bucket for networks /8) *)
Definition net (ip b : Z) : addr := match make_addr ip b with Ok a => a | _ => mkaddr 0 0 0 0 end.
Definition addresses (n : nat) : addr := nth n [net 0 8; net 167772160 8; net 335544320 8; net 503316480 8; net 335610113 32] (net 0 8).
Definition nodes0 : memory := fun n => if Nat.ltb n 5 then Some (None, addresses n) else None.
Definition program : list call := [Add 0 1; Add 0 2; Add 1 3; Search 0 4; Search 1 4]%nat.
Example fresh_case : (forall n, In n (named program) -> option_map snd (nodes0 n) = Some (addresses n)) /\ (forall n, In n (added program) -> exists a, nodes0 n = Some (None, a)) /\ NoDup (added program) /\
  spec_calls addresses (map tbl_init [0; 0]) program = Ok [None; None; None; Some 2%nat; None] /\ do_calls 3 nodes0 (map p_init [0; 0]) program = Ok [None; None; None; Some 2%nat; None].
Proof.
  split; [|split; [|split; [|split; vm_compute; reflexivity]]].
  - intros n J. cbn in J. repeat (destruct J as [<-|J]; [reflexivity|]). destruct J.
  - intros n J. cbn in J. repeat (destruct J as [<-|J]; [eexists; reflexivity|]). destruct J.
  - repeat constructor; cbn; intros J; repeat (destruct J as [J|J]; [discriminate|]); exact J.
Qed.
Example twice_case : forall fuel, do_calls fuel nodes0 [p_init 0] [Add 0 1; Add 0 1; Search 0 4]%nat = Loop.
Proof. intros fuel. apply (C86_twice_refuted 0 nodes0 1 4 None None (addresses 1) (addresses 4) 0xFF000000 fuel); vm_compute; try reflexivity; try discriminate; try (split; discriminate). Qed.
Example two_tables_case : do_calls 2 nodes0 [p_init 0; p_init 0] [Add 0 2; Add 0 1; Add 1 1; Search 1 4]%nat = Ok [None; None; None; Some 2%nat].
Proof. apply (C86_two_tables_refuted 0 0 nodes0 1 2 4 None None (addresses 1) (addresses 2) (addresses 4) 0xFF000000 2); vm_compute; try reflexivity; try discriminate; try (split; discriminate); auto. Qed.
Example lost_case : do_calls 3 nodes0 [p_init 0; p_init 0] [Add 0 2; Add 0 1; Search 0 4; Add 1 3; Add 1 1; Search 0 4]%nat = Ok [None; None; Some 2%nat; None; None; None].
Proof. apply (C86_lost_refuted 0 0 nodes0 1 2 3 4 None None (addresses 1) (addresses 2) (addresses 3) (addresses 4) 0xFF000000 3); vm_compute; try reflexivity; try discriminate; try (split; discriminate); auto. Qed.
