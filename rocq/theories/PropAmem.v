(** C64: the memory of arrays and byte streams (zt_array.h, zt_bstream.h).  Any program on any number of arrays and streams, running in memory whatever addresses the allocator hands out, gives the answers it would give
    if every array and stream were a value of its own; what it leaves allocated is what it has not freed, plus one block for every time zt_array_set_data or a growth from length 0 overwrites a data pointer. *)
From Verif Require Import Prelude Blocks ArrayModel AmemModel AmemSpec AmemProofs AmemSim.
From Coq Require Import Permutation.
Open Scope Z_scope.

(** what is alive at the end of a program, as values *)
Definition arrays (v : vstate) : list arr := cats (vA v) ++ map bdata (cats (vS v)).
Definition owning (l : list arr) : nat := length (filter (fun a => match adata a with Some _ => true | None => false end) l).
Lemma cats_map {X Y} (f : X -> Y) : forall L, cats (map (option_map f) L) = map f (cats L).
Proof. induction L as [|[x|] L IH]; cbn [map option_map cats flat_map one app]; [reflexivity|fold (cats (map (option_map f) L)); fold (cats L); now rewrite IH|exact IH]. Qed.
Lemma rel_counts q v : rel q v -> length (hdr (pm q)) = length (arrays v) /\ length (str (pm q)) = length (cats (vS v)) /\ length (blk (pm q)) = (owning (arrays v) + dropped v)%nat.
Proof.
  intros (IA & IS & F & (R1 & R2 & R3 & R4 & R5) & EF & EA & ES & _). unfold arrays. rewrite EA, ES, !cats_map. rewrite (Permutation_length R1), (Permutation_length R2), (Permutation_length R3), !map_length, !app_length, !map_length. split; [reflexivity|]. split; [reflexivity|]. rewrite EF. f_equal. unfold owning.
  replace (map val_a (cats IA) ++ map bdata (map val_s (cats IS))) with (map val_a (cats IA ++ map s_item (cats IS))) by (rewrite map_app, !map_map; f_equal; apply map_ext; now intros [[[s b] x] p]).
  clear R1 R2. induction (cats IA ++ map s_item (cats IS)) as [|[[x a] p] O IH]; [reflexivity|]. inversion R5 as [|? ? K1 K2]; subst. cbn [iok] in K1. cbn [flat_map iblk map filter val_a]. rewrite app_length, (IH K2). destruct p, (adata a); try contradiction; reflexivity.
Qed.
(** every program that is right on values is right in memory, with the same answers; and memory holds one header per live array or stream's array, one block per live stream, one block for each live array with data, and the dropped blocks *)
Theorem C64_history : forall pick os rs v, (forall c l, ~ In (pick c l) l) -> vrun vstart os = Ok (rs, v) ->
  exists q, prun pick pstart os = Ok (rs, q)
    /\ length (hdr (pm q)) = length (arrays v) /\ length (str (pm q)) = length (cats (vS v)) /\ length (blk (pm q)) = (owning (arrays v) + dropped v)%nat.
Proof. intros pick os rs v fresh E. destruct (run_ok pick fresh os _ _ _ _ rel_start E) as (q & P & R). exists q. split; [exact P|]. now apply rel_counts. Qed.
(** once everything is freed or handed over, only dropped blocks are left *)
Theorem C64_all_freed : forall pick os rs v, (forall c l, ~ In (pick c l) l) -> vrun vstart os = Ok (rs, v) -> (forall i a, nth_error (vA v) i <> Some (Some a)) -> (forall j b, nth_error (vS v) j <> Some (Some b)) ->
  exists q, prun pick pstart os = Ok (rs, q) /\ hdr (pm q) = [] /\ str (pm q) = [] /\ length (blk (pm q)) = dropped v.
Proof.
  intros pick os rs v fresh E H1 H2. destruct (C64_history pick os rs v fresh E) as (q & P & C1 & C2 & C3). exists q. split; [exact P|].
  assert (G : forall B (L : list (option B)), (forall i a, nth_error L i <> Some (Some a)) -> cats L = []). { intros B. induction L as [|[a|] L IH]; intros H; [reflexivity|exfalso; apply (H 0%nat a); reflexivity|]. apply IH. intros i a. apply (H (S i)). }
  unfold arrays in *. rewrite (G _ _ H1), (G _ _ H2) in *. cbn [map app length owning filter Nat.add] in *. destruct (hdr (pm q)); [|discriminate]. destruct (str (pm q)); [|discriminate]. auto.
Qed.
(** a program that neither replaces an array's contents nor sets a length to 0 drops nothing *)
Definition careful (o : aop) : Prop := match o with ASetData _ _ _ _ | BSetData _ _ _ | BTruncate _ => False | ASetLength _ len => len <> 0 | _ => True end.
Definition tight (a : arr) : Prop := alen a = 0 -> adata a = None.
Definition tidy (v : vstate) : Prop := dropped v = 0%nat /\ (forall i a, nth_error (vA v) i = Some (Some a) -> tight a) /\ (forall j b, nth_error (vS v) j = Some (Some b) -> tight (bdata b)).
Lemma live_nth {B} (L : list (option B)) i a : live L i = Ok a -> nth_error L i = Some (Some a).
Proof. unfold live. destruct (nth_error L i) as [[x|]|]; congruence. Qed.
Lemma new_tight len size a : array_new len size = Ok a -> tight a.
Proof.
  unfold array_new, arrayrep_init, tight. destruct (len >? 0) eqn:G; intros E; apply obind_ok in E; destruct E as (u & G1 & E); apply obind_ok in E; destruct E as (u2 & _ & E); match type of E with Ok ?y = _ => assert (a = y) by congruence; subst a end; cbn [alen adata]; [lia|reflexivity].
Qed.
Lemma with_tight data len size a : array_with data len size true = Ok a -> tight a.
Proof.
  unfold array_with, array_set_data, arrayrep_init, tight. cbv zeta. intros E. apply obind_ok in E. destruct E as (c & E1 & E). apply obind_ok in E1. destruct E1 as (u & G1 & E1). apply guard_ok in G1. apply obind_ok in E1. destruct E1 as (u2 & _ & E1). assert (c = mkarr len size (Some (zeros ((len * size) mod W64)))) by congruence. subst c. apply obind_ok in E. destruct E as (s & _ & E). apply obind_ok in E. destruct E as (d & _ & E). apply obind_ok in E. destruct E as (b & _ & E). match type of E with Ok ?y = _ => assert (a = y) by congruence; subst a end. cbn [alen]. lia.
Qed.
Lemma copy_tight a len c : array_copy a len = Ok c -> tight c.
Proof.
  unfold array_copy. intros E. apply obind_ok in E. destruct E as (n & E1 & E). pose proof (new_tight _ _ _ E1) as T. destruct (_ && _) eqn:G; [|assert (c = n) by congruence; now subst]. apply obind_ok in E. destruct E as (d & _ & E). apply obind_ok in E. destruct E as (b & _ & E). match type of E with Ok ?y = _ => assert (c = y) by congruence; subst c end. unfold tight. cbn [alen]. apply andb_true_iff in G. lia.
Qed.
Lemma resize_tight a len c : array_resize a len = Ok c -> tight c.
Proof. intros E. destruct (resize_shape _ _ _ E) as (S1 & _). unfold array_resize in E. apply obind_ok in E. destruct E as (u & G & _). apply guard_ok in G. unfold tight. lia. Qed.
Lemma tidy_putA v i o : tidy v -> (forall a, o = Some a -> tight a) -> tidy (vputA v i o 0).
Proof.
  intros (D & HA & HS) H. unfold vputA. split; [cbn [dropped]; lia|]. cbn [vA vS]. split; [|exact HS]. intros k a E. rewrite upd_nth_error in E. destruct (k =? i)%nat; [|now apply (HA k)]. destruct (i <? length (vA v))%nat; [apply H; congruence|discriminate].
Qed.
Lemma tidy_putS v i o : tidy v -> (forall b, o = Some b -> tight (bdata b)) -> tidy (vputS v i o 0).
Proof.
  intros (D & HA & HS) H. unfold vputS. split; [cbn [dropped]; lia|]. cbn [vA vS]. split; [exact HA|]. intros k a E. rewrite upd_nth_error in E. destruct (k =? i)%nat; [|now apply (HS k)]. destruct (i <? length (vS v))%nat; [apply H; congruence|discriminate].
Qed.
Lemma tidy_addA v a : tidy v -> tight a -> tidy (vadd v a).
Proof.
  intros (D & HA & HS) H. split; [exact D|]. split; [|exact HS]. cbn [vadd vA]. intros k c E. destruct (Nat.lt_ge_cases k (length (vA v))) as [Hk|Hk]; [rewrite nth_error_app1 in E by exact Hk; now apply (HA k)|]. rewrite nth_error_app2 in E by exact Hk. destruct (k - length (vA v))%nat as [|[|j]]; cbn [nth_error] in E; [|discriminate..]. assert (X : c = a) by congruence. now rewrite X.
Qed.
Lemma tidy_addS v b : tidy v -> tight (bdata b) -> tidy (mkvs (vA v) (vS v ++ [Some b]) (dropped v)).
Proof.
  intros (D & HA & HS) H. split; [exact D|]. split; [exact HA|]. cbn [vS]. intros k c E. destruct (Nat.lt_ge_cases k (length (vS v))) as [Hk|Hk]; [rewrite nth_error_app1 in E by exact Hk; now apply (HS k)|]. rewrite nth_error_app2 in E by exact Hk. destruct (k - length (vS v))%nat as [|[|j]]; cbn [nth_error] in E; [|discriminate..]. assert (X : c = b) by congruence. now rewrite X.
Qed.
Lemma tight_no_data a : tight a -> (if alen a =? 0 then has_data a else 0%nat) = 0%nat.
Proof. intros T. destruct (Z.eqb_spec (alen a) 0) as [E|]; [|reflexivity]. unfold has_data. now rewrite (T E). Qed.
Lemma tidy_step v o r v' : careful o -> tidy v -> vstep v o = Ok (r, v') -> tidy v'.
Proof.
  intros Hc V E. pose proof V as (D & HA & HS). destruct o; cbn [careful] in Hc; try contradiction; cbn [vstep] in E.
  - apply obind_ok in E. destruct E as (a & E1 & E). assert (X : v' = vadd v a) by congruence. subst. apply tidy_addA; [exact V|]. now apply new_tight in E1.
  - apply obind_ok in E. destruct E as (a & E1 & E). assert (X : v' = vadd v a) by congruence. subst. apply tidy_addA; [exact V|]. now apply with_tight in E1.
  - apply obind_ok in E. destruct E as (a & E1 & E). apply obind_ok in E. destruct E as (c & E2 & E). assert (X : v' = vadd v c) by congruence. subst. apply tidy_addA; [exact V|]. now apply copy_tight in E2.
  - apply obind_ok in E. destruct E as (a & E1 & E). assert (X : v' = vputA v i None 0) by congruence. subst. apply tidy_putA; [exact V|discriminate].
  - apply obind_ok in E. destruct E as (a & E1 & E). apply obind_ok in E. destruct E as (c & E2 & E). apply live_nth in E1. rewrite (tight_no_data a (HA _ _ E1)) in E. assert (X : v' = vputA v i (Some c) 0) by congruence. subst. apply tidy_putA; [exact V|]. intros z Ez. assert (z = c) by congruence. subst. now apply resize_tight in E2.
  - apply obind_ok in E. destruct E as (a & E1 & E). unfold array_set_length in E. assert (X : v' = vputA v i (Some (mkarr len (asize a) (adata a))) 0) by congruence. subst. apply tidy_putA; [exact V|]. intros z Ez. assert (z = mkarr len (asize a) (adata a)) by congruence. subst. unfold tight. cbn [alen]. congruence.
  - apply obind_ok in E. destruct E as (a & E1 & E). apply obind_ok in E. destruct E as (c & E2 & E). assert (X : v' = v) by congruence. now subst.
  - apply obind_ok in E. destruct E as (a & E1 & E). apply obind_ok in E. destruct E as (c & E2 & E). assert (X : v' = vputA v i (Some c) 0) by congruence. subst. apply tidy_putA; [exact V|]. intros z Ez. assert (z = c) by congruence. subst. apply put_shape in E2. destruct E2 as (S1 & S2 & S3). apply live_nth in E1. apply HA in E1. unfold tight in *. rewrite S1. intros Q. apply S3. auto.
  - apply obind_ok in E. destruct E as (b & E1 & E). assert (X : v' = mkvs (vA v) (vS v ++ [Some b]) (dropped v)) by congruence. subst. apply tidy_addS; [exact V|]. unfold bs_new in E1. apply obind_ok in E1. destruct E1 as (a & Ea & Eb). assert (b = mkbs false 0 a) by congruence. subst. now apply new_tight in Ea.
  - apply obind_ok in E. destruct E as (b & E1 & E). apply obind_ok in E. destruct E as (c & E2 & E). assert (X : v' = mkvs (vA v) (vS v ++ [Some c]) (dropped v)) by congruence. subst. apply tidy_addS; [exact V|]. unfold bs_clone in E2. apply obind_ok in E2. destruct E2 as (a & Ea & Eb). assert (c = mkbs false (offt b) a) by congruence. subst. now apply copy_tight in Ea.
  - apply obind_ok in E. destruct E as (b & E1 & E). assert (X : v' = vputS v j None 0) by congruence. subst. apply tidy_putS; [exact V|discriminate].
  - apply obind_ok in E. destruct E as (b & E1 & E). unfold bs_rewind in E. assert (X : v' = vputS v j (Some (mkbs (flip b) 0 (bdata b))) 0) by congruence. subst. apply tidy_putS; [exact V|]. intros z Ez. assert (z = mkbs (flip b) 0 (bdata b)) by congruence. subst. apply live_nth in E1. now apply HS in E1.
  - apply obind_ok in E. destruct E as (b & E1 & E). assert (X : v' = vputS v j (Some (mkbs f (offt b) (bdata b))) 0) by congruence. subst. apply tidy_putS; [exact V|]. intros z Ez. assert (z = mkbs f (offt b) (bdata b)) by congruence. subst. apply live_nth in E1. now apply HS in E1.
  - apply obind_ok in E. destruct E as (b & E1 & E). apply obind_ok in E. destruct E as (a & E2 & E). assert (X : v' = vputS (vputA v i None 0) j (Some (bs_set_array b a o)) 0) by congruence. subst. apply tidy_putS; [apply tidy_putA; [exact V|discriminate]|]. intros z Ez. assert (z = bs_set_array b a o) by congruence. subst. cbn [bs_set_array bdata]. apply live_nth in E2. now apply HA in E2.
  - apply obind_ok in E. destruct E as (b & E1 & E). apply obind_ok in E. destruct E as ([d c] & E2 & E). assert (X : v' = vputS v j (Some c) 0) by congruence. subst. unfold bs_read in E2. apply obind_ok in E2. destruct E2 as ([d' o'] & _ & E2). assert (c = mkbs (flip b) o' (bdata b)) by congruence. subst. apply tidy_putS; [exact V|]. intros z Ez. assert (z = mkbs (flip b) o' (bdata b)) by congruence. subst. apply live_nth in E1. now apply HS in E1.
  - apply obind_ok in E. destruct E as (b & E1 & E). apply obind_ok in E. destruct E as (c & E2 & E). apply live_nth in E1. apply HS in E1. assert (Q : (if grows b d && (alen (bdata b) =? 0) then has_data (bdata b) else 0%nat) = 0%nat). { destruct (grows b d); cbn [andb]; [now apply tight_no_data|reflexivity]. } rewrite Q in E. assert (X : v' = vputS v j (Some c) 0) by congruence. subst. apply tidy_putS; [exact V|]. intros z Ez. assert (z = c) by congruence. subst z.
    unfold bs_write in E2. cbv zeta in E2. apply obind_ok in E2. destruct E2 as (a & Ea & Eb). apply obind_ok in Eb. destruct Eb as ([o' a'] & Ep & Eb). assert (c = mkbs (flip b) o' a') by congruence. subst c. cbn [bdata]. unfold array_put_all in Ep. destruct (puts_shape _ _ _ _ _ Ep) as (S1 & S2 & S3). assert (Ta : tight a). { destruct (_ >? _); [now apply resize_tight in Ea|assert (a = bdata b) by congruence; now subst]. } unfold tight in *. rewrite S1. intros W. apply S3. auto.
Qed.
Theorem C64_nothing_dropped : forall os rs v, Forall careful os -> vrun vstart os = Ok (rs, v) -> dropped v = 0%nat.
Proof.
  intros os rs v Hc E. assert (G : forall os rs v0 v, Forall careful os -> tidy v0 -> vrun v0 os = Ok (rs, v) -> tidy v).
  { clear. induction os as [|o os IH]; intros rs v0 v Hc V E; cbn [vrun] in E; [assert (v = v0) by congruence; now subst|]. inversion Hc; subst. apply obind_ok in E. destruct E as ([r v1] & E1 & E). apply obind_ok in E. destruct E as ([l v2] & E2 & E). assert (v = v2) by congruence. subst. apply (IH l v1); [assumption| |exact E2]. now apply (tidy_step v0 o r). }
  apply (G os rs vstart v Hc); [|exact E]. split; [reflexivity|]. split; intros [|i] a X; discriminate.
Qed.

(** the two ways a block is lost, whatever the allocator: replacing the contents of an array, and writing to a truncated stream *)
Theorem C64_set_data_leak_refuted : exists os, forall pick, (forall c l, ~ In (pick c l) l) ->
  exists rs q, prun pick pstart os = Ok (rs, q) /\ hdr (pm q) = [] /\ str (pm q) = [] /\ length (blk (pm q)) = 1%nat /\ os = [ANew 1 1; ASetData 0 [7] 1 1; AFree 0].
Proof.
  exists [ANew 1 1; ASetData 0 [7] 1 1; AFree 0]. intros pick fresh. assert (E : vrun vstart [ANew 1 1; ASetData 0 [7] 1 1; AFree 0] = Ok ([[]; []; []], mkvs [None] [] 1)) by reflexivity.
  destruct (C64_all_freed pick _ _ _ fresh E) as (q & P & H1 & H2 & H3); [intros [|[|i]] a X; discriminate|intros [|j] b X; discriminate|]. eexists _, q. split; [exact P|]. split; [exact H1|]. split; [exact H2|]. split; [exact H3|reflexivity].
Qed.
Theorem C64_truncate_leak_refuted : exists os, forall pick, (forall c l, ~ In (pick c l) l) ->
  exists rs q, prun pick pstart os = Ok (rs, q) /\ hdr (pm q) = [] /\ str (pm q) = [] /\ length (blk (pm q)) = 1%nat /\ os = [BNew; BWrite 0 [1]; BTruncate 0; BRewind 0; BWrite 0 [2]; BFree 0].
Proof.
  exists [BNew; BWrite 0 [1]; BTruncate 0; BRewind 0; BWrite 0 [2]; BFree 0]. intros pick fresh. assert (E : vrun vstart [BNew; BWrite 0 [1]; BTruncate 0; BRewind 0; BWrite 0 [2]; BFree 0] = Ok ([[]; []; [2]; [1]; []; []], mkvs [] [None] 1)) by reflexivity.
  destruct (C64_all_freed pick _ _ _ fresh E) as (q & P & H1 & H2 & H3); [intros [|i] a X; discriminate|intros [|[|j]] b X; discriminate|]. eexists _, q. split; [exact P|]. split; [exact H1|]. split; [exact H2|]. split; [exact H3|reflexivity].
Qed.

(** without the copy flag the array is the caller's block: reads and writes go there, and freeing the array frees it *)
Section Ref.
Variable pick : nat -> list nat -> nat.
Lemma aget_head {A} (x : nat) (v : A) l : aget ((x, v) :: l) x = Some v.
Proof. cbn [aget]. now rewrite Nat.eqb_refl. Qed.
Lemma aget_aput {A} (l : list (nat * A)) x v w : aget l x = Some w -> aget (aput l x v) x = Some v.
Proof. unfold aput. induction l as [|[y u] l IH]; cbn [aget map fst]; [discriminate|]. destruct (Nat.eqb_spec y x) as [->|]; [intros _; cbn [aget]; now rewrite Nat.eqb_refl|]. intros E. cbn [aget]. destruct (Nat.eqb_spec y x); [contradiction|auto]. Qed.
Lemma aget_adel {A} (l : list (nat * A)) x : aget (adel l x) x = None.
Proof. unfold adel. induction l as [|[y u] l IH]; cbn [aget filter fst]; [reflexivity|]. destruct (Nat.eqb_spec y x) as [->|]; cbn [negb]; [exact IH|]. cbn [aget]. destruct (Nat.eqb_spec y x); [contradiction|exact IH]. Qed.
Definition by_ref (m : mem) (p : nat) (n size : Z) : mem := let x := pick (clk m) (taken m) in mkmem (blk m) (aput ((x, mkah 0 0 None) :: hdr m) x (mkah n size (Some p))) (str m) (S (clk m)).
Lemma with_ref m p n size : n > 0 -> size > 0 -> m_with_ref pick m (Some p) n size = Ok (by_ref m p n size, pick (clk m) (taken m)).
Proof. intros Hn Hs. unfold m_with_ref, m_set_ref, new_hdr. cbn [hdr]. rewrite aget_head. cbn [here obind]. replace (n >? 0) with true by lia. replace (size >? 0) with true by lia. reflexivity. Qed.
Lemma by_ref_hdr m p n size : aget (hdr (by_ref m p n size)) (pick (clk m) (taken m)) = Some (mkah n size (Some p)).
Proof. unfold by_ref. cbn [hdr]. apply (aget_aput _ _ _ (mkah 0 0 None)). apply aget_head. Qed.
Lemma by_ref_load m p n size b l : aget (blk m) p = Some (b, l) -> load (by_ref m p n size) (pick (clk m) (taken m)) = Ok (mkarr n size (Some l)).
Proof. intros E. unfold load. rewrite by_ref_hdr. cbn [here obind hdata hlen hsize]. cbn [by_ref blk]. rewrite E. reflexivity. Qed.
End Ref.
Theorem C64_reference : forall pick m p pre e post size n o, aget (blk m) p = Some (true, map Some (pre ++ e ++ post)) -> size > 0 ->
  Z.of_nat (length pre) = o * size -> Z.of_nat (length e) = size -> Z.of_nat (length (pre ++ e ++ post)) = n * size -> n * size < 18446744073709551616 ->
  exists m1 x, m_with_ref pick m (Some p) n size = Ok (m1, x) /\ aget (blk m1) p = Some (true, map Some (pre ++ e ++ post))
    /\ m_get m1 x o = Ok e
    /\ (forall d, length d = length e -> exists m2, m_put m1 x o d = Ok m2 /\ aget (blk m2) p = Some (true, map Some (pre ++ d ++ post)) /\ m_get m2 x o = Ok d)
    /\ exists m3, m_free m1 x = Ok m3 /\ aget (blk m3) p = None.
Proof.
  intros pick m p pre e post size n o Eb Hs H1 H2 H3 H4. assert (Hn : n > 0) by (rewrite !app_length in H3; nia). assert (Ho : 0 <= o < n) by (rewrite !app_length in H3; nia). eexists _, _. split; [apply with_ref; assumption|]. set (x := pick (clk m) (taken m)). set (m1 := by_ref pick m p n size). assert (L1 : load m1 x = Ok (mkarr n size (Some (map Some (pre ++ e ++ post))))) by (apply (by_ref_load pick m p n size true), Eb). assert (Hh : aget (hdr m1) x = Some (mkah n size (Some p))) by apply by_ref_hdr.
  assert (Bd : aget (blk m1) p = Some (true, map Some (pre ++ e ++ post))) by exact Eb. split; [exact Bd|]. assert (Mo : (o * size) mod W64 = Z.of_nat (length (map Some pre))) by (rewrite Z.mod_small by (unfold W64; nia); now rewrite map_length).
  assert (Rd : forall d, length d = length e -> array_elem_copy (mkarr n size (Some (map Some (pre ++ d ++ post)))) o = Ok d).
  { intros d Hd. unfold array_elem_copy. cbn [alen asize ablock adata]. replace (o <? n) with true by lia. cbn [guard obind]. rewrite Mo, Nat2Z.id, !map_app. rewrite rdn_ok by lia. rewrite firstn_all2 by lia. reflexivity. }
  split; [unfold m_get; rewrite L1; cbn [obind]; now apply Rd|]. split.
  - intros d Hd. unfold m_put. rewrite L1. cbn [obind]. unfold array_put. cbn [alen asize ablock adata]. replace (o <? n) with true by lia. cbn [guard obind]. replace (map Some d) with ([] ++ map Some d ++ []) by (cbn [app]; now rewrite app_nil_r). rewrite (rdn_ok d [] []) by lia. rewrite firstn_all2 by lia. cbn [obind]. rewrite Mo, Nat2Z.id, (map_app _ pre), wrn_ok by (rewrite map_length, app_length; lia). cbn [obind]. unfold store. rewrite Hh. cbn [here obind hdata adata]. unfold set_blk. rewrite Bd. cbn [here obind]. eexists. split; [reflexivity|].
    assert (W : map Some pre ++ map Some d ++ skipn (length d) (map Some (e ++ post)) = map Some (pre ++ d ++ post)). { rewrite !map_app. do 2 f_equal. rewrite skipn_app, skipn_all2 by (rewrite map_length; lia). rewrite map_length, Hd, Nat.sub_diag. reflexivity. }
    rewrite W. cbn [blk]. split; [now rewrite (aget_aput _ _ _ _ Bd)|]. unfold m_get, load. cbn [hdr blk]. rewrite Hh. cbn [here obind hdata hlen hsize]. rewrite (aget_aput _ _ _ _ Bd). cbn [here obind]. now apply Rd.
  - unfold m_free. rewrite Hh. cbn [here obind hdata]. unfold free_blk. rewrite Bd. cbn [here obind]. eexists. split; [reflexivity|]. cbn [blk]. apply aget_adel.
Qed.
(** without data and without the copy flag the array is empty: any length but 0, and any element size below 1, fails the assertion, and so does a length below 1 with data *)
Theorem C64_no_data : forall pick m data len size, exists r, m_with_ref pick m data len size = r /\
  (r = Abort <-> size <= 0 \/ (data = None /\ len <> 0) \/ (data <> None /\ len <= 0)) /\
  (r <> Abort -> exists m1 x, r = Ok (m1, x) /\ blk m1 = blk m /\ str m1 = str m /\ aget (hdr m1) x = Some (mkah len size data)).
Proof.
  intros pick m data len size. eexists. split; [reflexivity|]. unfold m_with_ref, m_set_ref, new_hdr. cbn [hdr]. rewrite aget_head. cbn [here obind]. assert (F : forall (h : ahdr) l, aget (aput ((pick (clk m) (taken m), mkah 0 0 None) :: l) (pick (clk m) (taken m)) h) (pick (clk m) (taken m)) = Some h) by (intros h l; apply (aget_aput _ _ _ (mkah 0 0 None)), aget_head).
  destruct data as [p|].
  - destruct (Z.gtb_spec len 0); cbn [guard obind]; [|split; [split; [intros _; right; right; split; [discriminate|lia]|reflexivity]|congruence]]. destruct (Z.gtb_spec size 0); cbn [guard obind]; [|split; [split; [intros _; left; lia|reflexivity]|congruence]]. split; [split; [discriminate|intros [?|[[? _]|[_ ?]]]; [lia|discriminate|lia]]|]. intros _. eexists _, _. split; [reflexivity|]. cbn [blk str set_hdr hdr]. auto.
  - destruct (Z.eqb_spec len 0); cbn [guard obind]; [|split; [split; [intros _; right; left; auto|reflexivity]|congruence]]. destruct (Z.gtb_spec size 0); cbn [guard obind]; [|split; [split; [intros _; left; lia|reflexivity]|congruence]]. split; [split; [discriminate|intros [?|[[_ ?]|[? _]]]; [lia|contradiction|congruence]]|]. intros _. eexists _, _. split; [reflexivity|]. cbn [blk str set_hdr hdr]. auto.
Qed.
(** freeing an array set up on memory that malloc did not return is undefined *)
Theorem C64_static_data : forall pick m p l n size, aget (blk m) p = Some (false, l) -> n > 0 -> size > 0 -> exists m1 x, m_with_ref pick m (Some p) n size = Ok (m1, x) /\ m_free m1 x = UB.
Proof.
  intros pick m p l n size E Hn Hs. eexists _, _. split; [apply with_ref; assumption|]. unfold m_free. rewrite by_ref_hdr. cbn [here obind hdata]. unfold free_blk. change (blk (by_ref pick m p n size)) with (blk m). rewrite E. reflexivity.
Qed.
(** two arrays on one block: freeing both is undefined *)
Theorem C64_shared_data : forall pick m p l n1 size1 n2 size2, (forall c l, ~ In (pick c l) l) -> NoDup (taken m) -> aget (blk m) p = Some (true, l) -> n1 > 0 -> size1 > 0 -> n2 > 0 -> size2 > 0 ->
  exists m1 x m2 y m3, m_with_ref pick m (Some p) n1 size1 = Ok (m1, x) /\ m_with_ref pick m1 (Some p) n2 size2 = Ok (m2, y) /\ m_free m2 x = Ok m3 /\ m_free m3 y = UB.
Proof.
  intros pick m p l n1 size1 n2 size2 fresh ND E H1 H2 H3 H4. set (x := pick (clk m) (taken m)). set (m1 := by_ref pick m p n1 size1). set (y := pick (clk m1) (taken m1)). set (m2 := by_ref pick m1 p n2 size2).
  assert (Hx : aget (hdr m1) x = Some (mkah n1 size1 (Some p))) by apply by_ref_hdr. assert (Nxy : x <> y). { intros X. apply (fresh (clk m1) (taken m1)). fold y. rewrite <- X. unfold taken. apply in_or_app. right. apply in_or_app. left. unfold m1, by_ref. cbn [hdr]. rewrite aput_keys. left. reflexivity. }
  assert (Hx2 : aget (hdr m2) x = Some (mkah n1 size1 (Some p))). { unfold m2, by_ref. cbn [hdr]. fold y. unfold aput. cbn [map fst]. rewrite Nat.eqb_refl. cbn [aget]. replace (y =? x)%nat with false by (symmetry; apply Nat.eqb_neq; congruence). fold (aput (hdr m1) y (mkah n2 size2 (Some p))). rewrite (aput_other (hdr m1) y) by (intros X; apply (fresh (clk m1) (taken m1)); fold y; unfold taken; apply in_or_app; right; apply in_or_app; now left). exact Hx. }
  assert (Hy2 : aget (hdr m2) y = Some (mkah n2 size2 (Some p))) by apply by_ref_hdr.
  exists m1, x, m2, y. eexists. split; [apply with_ref; assumption|]. split; [apply with_ref; assumption|]. unfold m_free. rewrite Hx2. cbn [here obind hdata]. unfold free_blk at 1. change (blk m2) with (blk m). rewrite E. cbn [here obind]. split; [reflexivity|]. cbn [hdr blk].
  assert (D : forall l0 : list (nat * ahdr), aget (adel l0 x) y = aget l0 y). { unfold adel. induction l0 as [|[z h] l0 IH]; cbn [filter fst aget]; [reflexivity|]. destruct (Nat.eqb_spec z x) as [->|]; cbn [negb]; [replace (x =? y)%nat with false by (symmetry; now apply Nat.eqb_neq); exact IH|]. cbn [aget]. destruct (z =? y)%nat; [reflexivity|exact IH]. }
  rewrite D, Hy2. cbn [here obind hdata]. unfold free_blk. cbn [blk]. rewrite aget_adel. reflexivity.
Qed.
(** growing an array that was set up on the caller's block moves the block: the caller's pointer is good no more, unless realloc happens to return the same address *)
Theorem C64_reference_resize : forall pick m p l n size len m1 x m2, (forall c l, ~ In (pick c l) l) -> aget (blk m) p = Some (true, l) -> n > 0 -> size > 0 -> m_with_ref pick m (Some p) n size = Ok (m1, x) -> m_resize pick m1 x len = Ok m2 ->
  exists p' l', aget (hdr m2) x = Some (mkah len size (Some p')) /\ aget (blk m2) p' = Some (true, l') /\ (p' <> p -> aget (blk m2) p = None).
Proof.
  intros pick m p l n size len m1 x m2 fresh E Hn Hs Ew Er. rewrite with_ref in Ew by assumption. assert (m1 = by_ref pick m p n size /\ x = pick (clk m) (taken m)) as (-> & ->) by (split; congruence). unfold m_resize in Er. rewrite by_ref_hdr in Er. cbn [here obind hlen hsize hdata] in Er. apply obind_ok in Er. destruct Er as (u & _ & Er). replace (n =? 0) with false in Er by lia. rewrite (by_ref_load pick m p n size true l E) in Er. cbn [obind] in Er. unfold free_blk in Er. change (blk (by_ref pick m p n size)) with (blk m) in Er. rewrite E in Er. cbn [here obind] in Er. apply obind_ok in Er. destruct Er as (v & Ev & Er). destruct (resize_shape _ _ _ Ev) as (S1 & S2 & S3). destruct (adata v) as [l'|] eqn:Ed; [|contradiction]. cbn [new_data] in Er. unfold new_blk in Er. cbn [blk hdr str clk] in Er. set (p' := pick _ _) in Er. match type of Er with Ok ?y = _ => assert (X : m2 = y) by congruence; subst m2 end.
  exists p', l'. unfold set_hdr. cbn [hdr blk]. split; [|split].
  - apply (aget_aput _ _ _ (mkah n size (Some p))). apply (by_ref_hdr pick m p n size).
  - apply aget_head.
  - intros N. cbn [aget]. replace (p' =? p)%nat with false by (symmetry; now apply Nat.eqb_neq). apply aget_adel.
Qed.
(** giving a stream the array it already has frees that array: every later use is undefined *)
Theorem C64_set_own_array : forall pick m s b o m', aget (str m) s = Some b -> s_set_array m s (sarr b) o = Ok m' ->
  s_free m' s = UB /\ s_truncate m' s = UB /\ (forall d, s_write pick m' s d = UB) /\ (forall n, s_read m' s n = UB) /\ s_clone pick m' s = UB.
Proof.
  intros pick m s b o m' E Es. unfold s_set_array in Es. rewrite E in Es. cbn [here obind] in Es. apply obind_ok in Es. destruct Es as (m1 & Em & Es). match type of Es with Ok ?y = _ => assert (X : m' = y) by congruence; subst m' end. unfold m_free in Em. destruct (aget (hdr m) (sarr b)) as [h|] eqn:Eh; [|discriminate]. cbn [here obind] in Em. apply obind_ok in Em. destruct Em as (m0 & Ef & Em). match type of Em with Ok ?y = _ => assert (X : m1 = y) by congruence; subst m1 end.
  assert (K : str m0 = str m /\ hdr m0 = hdr m). { unfold free_blk in Ef. destruct (hdata h) as [p|]; [|assert (m0 = m) by congruence; now subst]. apply obind_ok in Ef. destruct Ef as ([fl l] & _ & Ef). destruct fl; [|discriminate]. match type of Ef with Ok ?y = _ => assert (X : m0 = y) by congruence; subst m0 end. split; reflexivity. } destruct K as (K1 & K2).
  assert (S1 : aget (str (set_str (mkmem (blk m0) (adel (hdr m0) (sarr b)) (str m0) (clk m0)) s (mkst (sflip b) o (sarr b)))) s = Some (mkst (sflip b) o (sarr b))). { unfold set_str. cbn [str]. apply (aget_aput _ _ _ b). now rewrite K1. }
  assert (H1 : aget (adel (hdr m0) (sarr b)) (sarr b) = None) by apply aget_adel.
  unfold s_free, s_truncate, s_write, s_read, s_clone, m_free, m_set_length, load, new_str. rewrite S1. cbn [here obind sarr]. unfold set_str. cbn [hdr]. rewrite H1. cbn [here obind]. auto 10.
Qed.

(** non-vacuity: a program with three arrays and two streams, with the allocator that takes the least free address above all those in use *)
Definition above (c : nat) (l : list nat) : nat := S (fold_right Nat.max 0%nat l).
Lemma above_fresh : forall c l, ~ In (above c l) l.
Proof. intros c l H. assert (G : forall l, In (above c l) l -> False -> False) by tauto. assert (B : forall y l, In y l -> (y <= fold_right Nat.max 0 l)%nat). { clear. intros y. induction l as [|z l IH]; [intros []|]. intros [->|I]; cbn [fold_right]; [lia|]. apply IH in I. lia. } apply B in H. unfold above in H. lia. Qed.
Definition sample : list aop := [ANew 3 2; APut 0 1 [5; 6]; ACopy 0 5; APut 0 1 [7; 8]; AGet 1 1; AGet 0 1; BNew; BWrite 0 [1; 2; 3]; BClone 0; BRewind 0; BFlip 0 true; BRead 0 3; AWith [9; 10] 2 1; BSetArray 0 2 0; BRead 0 2; BRewind 1; BRead 1 2; AResize 1 6; AFree 0; AFree 1; BFree 1; BFree 0].
Example C64_ex_history : match prun above pstart sample with Ok (rs, q) => rs = [[]; []; []; []; [5; 6]; [7; 8]; []; []; []; [3]; []; [3; 2; 1]; []; []; [10; 9]; [3]; [1; 2]; []; []; []; []; []] /\ blk (pm q) = [] /\ hdr (pm q) = [] /\ str (pm q) = [] | _ => False end.
Proof. vm_compute. repeat split. Qed.
Example C64_ex_careful : Forall careful sample.
Proof. repeat (constructor; [exact Logic.I|]). constructor. Qed.
Example C64_ex_values : match vrun vstart sample with Ok (_, v) => dropped v = 0%nat /\ vA v = [None; None; None] /\ vS v = [None; None] | _ => False end.
Proof. vm_compute. repeat split. Qed.
Definition two : mem := mkmem [(1%nat, (true, map Some [1; 2; 3; 4])); (2%nat, (false, map Some [5]))] [] [] 0.
Example C64_ex_reference : exists m1 x, m_with_ref above two (Some 1%nat) 2 2 = Ok (m1, x) /\ m_get m1 x 1 = Ok [3; 4].
Proof. eexists _, _. split; reflexivity. Qed.
Example C64_ex_own : exists q m', prun above pstart [BNew; BWrite 0 [1]] = Ok ([[]; []], q) /\ s_set_array (pm q) 1 2 0 = Ok m' /\ aget (str (pm q)) 1 = Some (mkst false 1 2).
Proof. eexists _, _. split; [reflexivity|]. split; reflexivity. Qed.
Print Assumptions C64_history. Print Assumptions C64_all_freed. Print Assumptions C64_nothing_dropped. Print Assumptions C64_set_data_leak_refuted. Print Assumptions C64_truncate_leak_refuted. Print Assumptions C64_reference. Print Assumptions C64_no_data.
Print Assumptions C64_static_data.
Print Assumptions C64_shared_data. Print Assumptions C64_reference_resize. Print Assumptions C64_set_own_array.
