(** C65: address tables in the pools they find by name.

    Every table makes three pools of its own, but rows, nodes and addresses come from the oldest pools of those names, whoever made them; destroying a table gives nothing back.
    Proved: as long as no table is larger than an older one, programs on any number of tables answer what they would if every table were a value of its own, whatever addresses malloc gives, and exactly the counted rows, nodes and addresses stay in use.
    Refuted: a table larger than all older ones, one of which was used, writes past the end of a row the first time a network is added; searching, and destroying, leave elements in use. *)
From Coq Require Import Ascii String.
From Verif Require Import Prelude MemModel MemProofs RegModel RegSpec PropReg TmemModel TmemProofs LogSpec ImemModel ImemSpec ImemProofs ImemSim ImemStep.
From Verif Require Ipv4Model.
From Coq Require Import Permutation Sorted.
Open Scope Z_scope.

Section P.
Variable pick : nat -> list nat -> nat.
Hypothesis fresh : forall k l, ~ In (pick k l) l.
Variable sys : Z.
Hypothesis Hsys : 4096 <= sys < 2 ^ 63.

Lemma from_start os rs v : Forall u32 os -> descending os -> vrun vw0 os = Ok (rs, v) -> exists w last, irun pick sys iw0 os = Ok (rs, w) /\ inv w v last /\ incl (hsizes (shape (iw_reg w))) (map (Z.mul 8) (flat_map slots_of os)).
Proof.
  intros U D E. destruct (run_ok pick fresh sys Hsys os iw0 vw0 (2 ^ 32) rs v start U) as (w & last & Er & V & G); [|exact D|exact E|].
  - intros x l Ex. assert (I : In x (flat_map slots_of os)) by (rewrite Ex; now left). apply in_flat_map in I. destruct I as (o & Io & I). rewrite Forall_forall in U. specialize (U o Io). destruct o; cbn [u32 slots_of In] in *; try contradiction. destruct I as [<-|[]]. destruct (size =? 0); lia.
  - exists w, last. split; [exact Er|]. split; [exact V|]. intros z J. apply G in J. apply in_app_or in J. destruct J as [J|J]; [exact J|destruct J].
Qed.

(** C65: no table larger than an older one *)
Theorem C65_history os rs v : Forall u32 os -> descending os -> vrun vw0 os = Ok (rs, v) ->
  exists w, irun pick sys iw0 os = Ok (rs, w) /\ used (iw_reg w) (str "zt_ipv4_node_hash") = n_rows v /\ used (iw_reg w) (str "zt_ipv4_node") = n_nodes v /\ used (iw_reg w) (str "zt_ipv4_addr") = n_addrs v.
Proof.
  intros U D E. destruct (from_start os rs v U D E) as (w & last & Er & V & _). exists w. split; [exact Er|]. destruct V as [(H & Gr & Gn & Ga & St & Ph & Pn & Pa & L1 & L2 & L3) _ _ _ _ _]. change (str "zt_ipv4_node_hash") with hash_pool. change (str "zt_ipv4_node") with node_pool. change (str "zt_ipv4_addr") with addr_pool.
  rewrite !(used_handles _ H _ St). rewrite <- L1, <- L2, <- L3. repeat split; now apply Permutation_length.
Qed.
(** C65: tables that were never used take all their pools with them *)
Theorem C65_unused os rs v : Forall u32 os -> descending os -> Forall (fun o => match o with INew _ | IFree _ => True | _ => False end) os -> vrun vw0 os = Ok (rs, v) -> Forall (fun t => t = None) (vt v) ->
  exists w, irun pick sys iw0 os = Ok (rs, w) /\ plist (iw_reg w) = [].
Proof.
  intros U D Pl E No. destruct (plain_ok pick fresh sys Hsys os iw0 vw0 (2 ^ 32) rs v start) as (w & Er & Ow & last & V); try assumption; try reflexivity.
  - intros a k s [].
  - intros x l Ex. assert (I : In x (flat_map slots_of os)) by (rewrite Ex; now left). apply in_flat_map in I. destruct I as (o & Io & I). rewrite Forall_forall in U. specialize (U o Io). destruct o; cbn [u32 slots_of In] in *; try contradiction. destruct I as [<-|[]]. destruct (size =? 0); lia.
  - exists w. split; [exact Er|]. pose proof (i_tabs _ _ _ V) as F. assert (G : flat_map group_of (iw_tabs w) = []). { clear - F No. induction F as [|o o' tabs vs K F IH]; [reflexivity|]. inversion No; subst. cbn [flat_map]. destruct o as [it|]; [contradiction|]. cbn [group_of app]. now apply IH. }
    destruct (plist (iw_reg w)) as [|e l] eqn:El; [reflexivity|]. exfalso. unfold owned in Ow. rewrite G in Ow. unfold shape in Ow. rewrite El in Ow. cbn [map] in Ow. unfold shape1 in Ow at 1. apply (Ow (addr e) (name e) (elt_size (body e))). now left.
Qed.

(** C65 does not hold of larger tables: after any such history that has put a network of length 1 to 32 into some table, adding one to a table larger than all before it is undefined *)
Theorem C65_bigger_refuted os rs v size ip b n t : Forall u32 os -> descending os -> vrun vw0 os = Ok (rs, v) -> (0 < n_rows v)%nat -> 0 < size < 2 ^ 32 -> (forall s, In s (flat_map slots_of os) -> s < size) -> 1 <= b <= 32 ->
  Ipv4Model.add_net (Ipv4Model.tbl_init size) (vids v) ip b = Ok (n, t) ->
  (exists v', vrun vw0 (os ++ [INew size; IAdd (length (vt v)) (Some (ip, b))]) = Ok (rs ++ [None; Some (Ipv4Model.naddr n)], v')) /\ irun pick sys iw0 (os ++ [INew size; IAdd (length (vt v)) (Some (ip, b))]) = UB.
Proof.
  intros U D E Hr Hs Hb Hbit Ea. split.
  - assert (X : forall os2 w rs, vrun w os = Ok (rs, v) -> vrun w (os ++ os2) = (' (l, w2) <- vrun v os2 ;; Ok (rs ++ l, w2))).
    { clear. intros os2. induction os as [|o os IH]; intros w rs E; cbn [app vrun] in *.
      - assert (rs = [] /\ v = w) as (-> & ->) by (split; congruence). destruct (vrun w os2) as [[l w2]| | |]; reflexivity.
      - apply obind_ok in E. destruct E as ([x w0] & E1 & E). apply obind_ok in E. destruct E as ([l w2] & E2 & E). assert (rs = x :: l /\ v = w2) as (-> & ->) by (split; congruence). rewrite E1. cbn [obind]. rewrite (IH w0 l E2). destruct (vrun w2 os2) as [[l' w3]| | |]; reflexivity. }
    rewrite (X _ vw0 rs E). cbn [vrun vstep obind vt vids]. unfold live. rewrite nth_error_app2, Nat.sub_diag by lia. cbn [nth_error obind]. cbn [Ipv4Model.tany Ipv4Model.tbl_init]. fold (Ipv4Model.tbl_init size). rewrite Ea. cbn [obind]. eexists. reflexivity.
  - destruct (from_start os rs v U D E) as (w & last & Er & V & G). rewrite (run_app pick sys os _ iw0 rs w Er). unfold Ipv4Model.add_net in Ea. cbn [Ipv4Model.tany Ipv4Model.tbl_init] in Ea. apply obind_ok in Ea. destruct Ea as (ad & Em & _).
    assert (X : irun pick sys w [INew size; IAdd (length (vt v)) (Some (ip, b))] = UB). { apply (bigger_ub pick fresh sys Hsys w v last size ip b ad _ (length (vt v)) V Hs Hr); try assumption; try reflexivity; [|symmetry; apply (F2_len _ _ _ (i_tabs _ _ _ V))]. intros s J. apply G in J. apply in_map_iff in J. destruct J as (y & <- & J). specialize (Hb y J). lia. }
    rewrite X. reflexivity.
Qed.

(** C65: searching is not free of charge: with one network in a table, k searches that find it, and the table destroyed, k + 1 addresses, a node and a row are still in use *)
Definition lookup : iop := ISearch 0 (Some (0x0A010203, 32)).
Definition searches (k : nat) : list iop := [INew 16; IAdd 0 (Some (0x0A000000, 8))] ++ repeat lookup k ++ [IFree 0].
Lemma searches_v k : forall v1 x, vstep v1 lookup = Ok (x, mkvw (vt v1) (vids v1) (n_rows v1) (n_nodes v1) (S (n_addrs v1))) -> (forall m, vstep (mkvw (vt v1) (vids v1) (n_rows v1) (n_nodes v1) m) lookup = Ok (x, mkvw (vt v1) (vids v1) (n_rows v1) (n_nodes v1) (S m))) ->
  forall t, vt v1 = [Some t] -> vrun v1 (repeat lookup k ++ [IFree 0]) = Ok (repeat x k ++ [None], mkvw [None] (vids v1) (n_rows v1) (n_nodes v1) (k + n_addrs v1)).
Proof.
  induction k as [|k IH]; intros v1 x _ E t Et; cbn [repeat app vrun].
  - cbn [vstep]. rewrite Et. reflexivity.
  - assert (E1 : vstep v1 lookup = Ok (x, mkvw (vt v1) (vids v1) (n_rows v1) (n_nodes v1) (S (n_addrs v1)))) by (destruct v1; apply E). rewrite E1. cbn [obind]. rewrite (IH _ x (E (S (n_addrs v1))) E t Et). cbn [obind vids n_rows n_nodes n_addrs]. do 3 f_equal. lia.
Qed.
Theorem C65_search_refuted k : exists a w, irun pick sys iw0 (searches k) = Ok ([None; Some a] ++ repeat (Some a) k ++ [None], w) /\ iw_tabs w = [None]
  /\ used (iw_reg w) (str "zt_ipv4_node_hash") = 1%nat /\ used (iw_reg w) (str "zt_ipv4_node") = 1%nat /\ used (iw_reg w) (str "zt_ipv4_addr") = S k.
Proof.
  assert (Sl : flat_map slots_of (searches k) = [16]). { unfold searches. rewrite !flat_map_app. cbn [flat_map slots_of app Z.eqb]. replace (flat_map slots_of (repeat lookup k)) with (@nil Z); [reflexivity|]. symmetry. induction k as [|j IH]; [reflexivity|exact IH]. }
  assert (U : Forall u32 (searches k)). { unfold searches. apply Forall_app. split; [constructor; [cbn; lia|constructor; [exact Logic.I|constructor]]|]. apply Forall_app. split; [|constructor; [exact Logic.I|constructor]]. apply Forall_forall. intros o J. apply repeat_spec in J. subst o. exact Logic.I. }
  assert (D : descending (searches k)). { intros l1 x l2 y l3 E. rewrite Sl in E. destruct l1 as [|z l1]; cbn [app] in E; [destruct l2; discriminate|]. destruct l1; discriminate. }
  set (an := match Ipv4Model.make_addr 0x0A000000 8 with Ok a => a | _ => Ipv4Model.mkaddr 0 0 0 0 end). set (t1 := match Ipv4Model.add_net (Ipv4Model.tbl_init 16) 0 0x0A000000 8 with Ok (_, t) => t | _ => Ipv4Model.tbl_init 16 end).
  assert (E : vrun vw0 (searches k) = Ok ([None; Some an] ++ repeat (Some an) k ++ [None], mkvw [None] 1 1 1 (k + 1))).
  { unfold searches. cbn [app vrun].
    assert (E1 : vstep vw0 (INew 16) = Ok (None, mkvw [Some (Ipv4Model.tbl_init 16)] 0 0 0 0)) by reflexivity. rewrite E1. cbn [obind]. assert (E2 : vstep (mkvw [Some (Ipv4Model.tbl_init 16)] 0 0 0 0) (IAdd 0 (Some (0x0A000000, 8))) = Ok (Some an, mkvw [Some t1] 1 1 1 1)) by (vm_compute; reflexivity). rewrite E2. cbn [obind].
    assert (E3 : forall m, vstep (mkvw [Some t1] 1 1 1 m) lookup = Ok (Some an, mkvw [Some t1] 1 1 1 (S m))) by (intros m; vm_compute; reflexivity).
    rewrite (searches_v k (mkvw [Some t1] 1 1 1 1) (Some an) (E3 1%nat) E3 t1 eq_refl). reflexivity. }
  destruct (from_start _ _ _ U D E) as (w & last & Er & V & _). exists an, w. split; [exact Er|]. destruct V as [(H & Gr & Gn & Ga & St & Ph & Pn & Pa & L1 & L2 & L3) _ _ Ft _ _]. split.
  - inversion Ft as [|o o' tabs vs K F]; subst. inversion F; subst. destruct o; [contradiction|reflexivity].
  - change (str "zt_ipv4_node_hash") with hash_pool. change (str "zt_ipv4_node") with node_pool. change (str "zt_ipv4_addr") with addr_pool. rewrite !(used_handles _ H _ St). cbn [n_rows n_nodes n_addrs] in L1, L2, L3. apply Permutation_length in Ph, Pn, Pa. lia.
Qed.
(** C65: a text that is not a network costs a node *)
Theorem C65_bad_text_refuted k : exists w, irun pick sys iw0 (INew 16 :: repeat (IAdd 0 None) k) = Ok (repeat None (S k), w) /\ used (iw_reg w) (str "zt_ipv4_node") = k.
Proof.
  assert (Sl : flat_map slots_of (INew 16 :: repeat (IAdd 0 None) k) = [16]). { cbn [flat_map slots_of app Z.eqb]. replace (flat_map slots_of (repeat (IAdd 0 None) k)) with (@nil Z); [reflexivity|]. symmetry. induction k as [|j IH]; [reflexivity|exact IH]. }
  assert (E : forall m, vrun (mkvw [Some (Ipv4Model.tbl_init 16)] 0 0 m 0) (repeat (IAdd 0 None) k) = Ok (repeat None k, mkvw [Some (Ipv4Model.tbl_init 16)] 0 0 (k + m) 0)).
  { clear Sl. induction k as [|j IH]; intros m; [reflexivity|]. cbn [repeat vrun]. assert (E1 : vstep (mkvw [Some (Ipv4Model.tbl_init 16)] 0 0 m 0) (IAdd 0 None) = Ok (None, mkvw [Some (Ipv4Model.tbl_init 16)] 0 0 (S m) 0)) by reflexivity. rewrite E1. cbn [obind]. rewrite IH. cbn [obind]. do 3 f_equal. lia. }
  destruct (C65_history (INew 16 :: repeat (IAdd 0 None) k) (repeat None (S k)) (mkvw [Some (Ipv4Model.tbl_init 16)] 0 0 (k + 0) 0)) as (w & Er & _ & Un & _).
  - constructor; [cbn; lia|]. apply Forall_forall. intros o J. apply repeat_spec in J. subst o. exact Logic.I.
  - intros l1 x l2 y l3 E'. rewrite Sl in E'. destruct l1 as [|z l1]; cbn [app] in E'; [destruct l2; discriminate|]. destruct l1; discriminate.
  - cbn [vrun]. assert (E1 : vstep vw0 (INew 16) = Ok (None, mkvw [Some (Ipv4Model.tbl_init 16)] 0 0 0 0)) by reflexivity. rewrite E1. cbn [obind]. rewrite E. reflexivity.
  - exists w. split; [exact Er|]. rewrite Un. cbn [n_nodes]. lia.
Qed.
End P.

(** non-vacuity *)
Definition next (c : nat) (l : list nat) : nat := S (fold_right Nat.max 0%nat l).
Lemma next_fresh : forall c l, ~ In (next c l) l.
Proof. intros c l H. assert (B : forall y l, In y l -> (y <= fold_right Nat.max 0 l)%nat). { clear. intros y. induction l as [|z l IH]; [intros []|]. intros [->|I]; cbn [fold_right]; [lia|]. apply IH in I. lia. } apply B in H. unfold next in H. lia. Qed.
Definition sample : list iop := [INew 0; INew 16; IAdd 0 (Some (0x0A000000, 8)); IAdd 1 (Some (0xC0A80000, 16)); IAdd 0 None; ISearch 0 (Some (0x0A010203, 32)); ISearch 1 (Some (0x0A010203, 32)); IFree 0; ISearch 1 (Some (0xC0A80101, 32)); INew 16; IAdd 2 (Some (0xC0A80000, 16)); IFree 2].
Example C65_ex_history : Forall u32 sample /\ flat_map slots_of sample = [128; 16; 16] /\ match irun next 4096 iw0 sample, vrun vw0 sample with
  | Ok (rs, w), Ok (rs', v) => rs = rs' /\ map (option_map Ipv4Model.a_addr) rs = [None; None; Some 0x0A000000; Some 0xC0A80000; None; Some 0x0A000000; None; None; Some 0xC0A80000; None; Some 0xC0A80000; None] /\ (n_rows v, n_nodes v, n_addrs v) = (3, 4, 6)%nat /\ used (iw_reg w) (str "zt_ipv4_addr") = 6%nat
  | _, _ => False end.
Proof. split; [repeat constructor; cbn; lia|]. split; [reflexivity|]. vm_compute. repeat split. Qed.
Example C65_ex_descending : descending sample.
Proof.
  unfold descending. replace (flat_map slots_of sample) with [128; 16; 16] by reflexivity. intros [|a [|b [|c l1]]] x l2 y l3 E; cbn [app] in E.
  - destruct l2 as [|d [|e l2]]; cbn [app] in E; [assert (x = 128 /\ y = 16) as [-> ->] by (split; congruence); lia|assert (x = 128 /\ y = 16) as [-> ->] by (split; congruence); lia|]. exfalso. apply (f_equal (@List.length Z)) in E. cbn [List.length] in E. rewrite app_length in E. cbn [List.length] in E. lia.
  - destruct l2 as [|d l2]; cbn [app] in E; [assert (x = 16 /\ y = 16) as [-> ->] by (split; congruence); lia|]. exfalso. apply (f_equal (@List.length Z)) in E. cbn [List.length] in E. rewrite app_length in E. cbn [List.length] in E. lia.
  - exfalso. apply (f_equal (@List.length Z)) in E. cbn [List.length] in E. rewrite app_length in E. cbn [List.length] in E. lia.
  - exfalso. apply (f_equal (@List.length Z)) in E. cbn [List.length] in E. rewrite !app_length in E. cbn [List.length] in E. rewrite app_length in E. cbn [List.length] in E. lia.
Qed.
Example C65_ex_bigger : match vrun vw0 [INew 16; IAdd 0 (Some (0x0A000000, 8)); IFree 0] with Ok (_, v) => n_rows v = 1%nat | _ => False end /\ irun next 4096 iw0 [INew 16; IAdd 0 (Some (0x0A000000, 8)); IFree 0; INew 1024; IAdd 1 (Some (0x0A000000, 8))] = UB.
Proof. split; vm_compute; reflexivity. Qed.
Example C65_ex_unused : match irun next 4096 iw0 [INew 0; INew 16; IFree 0; IFree 1] with Ok (_, w) => plist (iw_reg w) = [] | _ => False end.
Proof. vm_compute. reflexivity. Qed.

Print Assumptions C65_history.
Print Assumptions C65_unused.
Print Assumptions C65_bigger_refuted.
Print Assumptions C65_search_refuted.
Print Assumptions C65_bad_text_refuted.
