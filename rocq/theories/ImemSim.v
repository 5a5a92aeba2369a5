(** Every step of a program in the shared pools follows the step on values, as long as no table is larger than an older one. *)
From Verif Require Import Prelude MemModel MemProofs RegModel RegSpec PropReg TmemModel TmemProofs ImemModel ImemSpec ImemProofs.
From Verif Require Ipv4Model.
Import Ipv4Model (tbl, rows, tin, tsz, tany, mktbl, nid, naddr, mknode, bitlen, a_addr, netmask, make_addr, tbl_init, add_node, addr_cmp).
From Coq Require Import Permutation Sorted.
Open Scope Z_scope.

Definition one {A} (o : option A) : list A := match o with Some x => [x] | None => [] end.
Definition node_in (t : tbl) (n : Ipv4Model.node) : Prop := tany t = Some n \/ exists k row j c, nth_error (rows t) k = Some (Some row) /\ nth_error row j = Some c /\ In n c.
Record tab_ok (sh : list shp) (np : nat) (it : itable) (t : tbl) : Prop := mkto {
  t_tbl : it_tbl it = t;
  t_len : length (rows t) = 32%nat;
  t_rows : Forall2 (fun (o : option handle) (o' : option (list (list Ipv4Model.node))) => o = None <-> o' = None) (it_rows it) (rows t);
  t_nodes : forall n, node_in t n -> (nid n < np)%nat;
  t_group : exists a1 a2 a3, it_group it = [Some a1; Some a2; Some a3] /\ In (a1, Some hash_pool, 8 * tsz t) sh /\ In (a2, Some node_pool, 16) sh /\ In (a3, Some addr_pool, 16) sh }.
Definition pair_ok (sh : list shp) (np : nat) (o : option itable) (o' : option tbl) : Prop := match o, o' with Some it, Some t => tab_ok sh np it t | None, None => True | _, _ => False end.
Definition rows_of (o : option itable) : list handle := match o with Some it => flat_map one (it_rows it) | None => [] end.
Definition group_of (o : option itable) : list nat := match o with Some it => flat_map one (it_group it) | None => [] end.
Definition hsizes (sh : list shp) : list Z := map snd (filter (is_ hash_pool) sh).
Record inv (w : iworld) (v : vworld) (last : Z) : Prop := mkinv {
  i_body : exists H Gr Gn Ga, state (iw_reg w) H
    /\ Permutation (handles (shape (iw_reg w)) H hash_pool) (flat_map rows_of (iw_tabs w) ++ Gr)
    /\ Permutation (handles (shape (iw_reg w)) H node_pool) (map fst (iw_places w) ++ Gn)
    /\ Permutation (handles (shape (iw_reg w)) H addr_pool) (map snd (iw_places w) ++ Ga)
    /\ length (flat_map rows_of (iw_tabs w) ++ Gr) = n_rows v /\ length (map fst (iw_places w) ++ Gn) = n_nodes v /\ length (map snd (iw_places w) ++ Ga) = n_addrs v;
  i_sized : sized last (shape (iw_reg w));
  i_sorted : StronglySorted (fun x y => y <= x) (hsizes (shape (iw_reg w)));
  i_tabs : Forall2 (pair_ok (shape (iw_reg w)) (length (iw_places w))) (iw_tabs w) (vt v);
  i_groups : NoDup (flat_map group_of (iw_tabs w));
  i_ids : vids v = length (iw_places w) }.

(** the oldest row pool is at least as large as any other *)
Lemma sorted_first sh n l1 a0 s0 l2 a s : n = hash_pool -> StronglySorted (fun x y => y <= x) (hsizes sh) -> sh = l1 ++ (a0, Some n, s0) :: l2 -> (forall x, In x l1 -> is_ n x = false) -> In (a, Some n, s) sh -> s <= s0.
Proof.
  intros -> So -> N I. unfold hsizes in So. rewrite filter_app in So. assert (F : filter (is_ hash_pool) l1 = []). { clear - N. induction l1 as [|x l IH]; [reflexivity|]. cbn [filter]. rewrite (N x (or_introl eq_refl)). apply IH. intros y I. apply N. now right. }
  rewrite F in So. cbn [app filter] in So. rewrite is_self in So. cbn [map snd] in So. inversion So as [|? ? _ Fa]; subst. apply in_app_or in I. destruct I as [I|[I|I]].
  - apply N in I. rewrite is_self in I. discriminate.
  - assert (s = s0) by congruence. lia.
  - rewrite Forall_forall in Fa. apply Fa. change s with (snd (a, Some hash_pool, s)). apply in_map. apply filter_In. split; [exact I|apply is_self].
Qed.

Lemma F2_nth {A B} (R : A -> B -> Prop) : forall l m i y, Forall2 R l m -> nth_error m i = Some y -> exists x, nth_error l i = Some x /\ R x y.
Proof. intros l m i y F. revert i. induction F as [|a b l m Hab F IH]; intros [|i] E; cbn [nth_error] in *; try discriminate; [exists a; split; [reflexivity|congruence]|now apply IH]. Qed.
Lemma F2_nth_l {A B} (R : A -> B -> Prop) : forall l m i x, Forall2 R l m -> nth_error l i = Some x -> exists y, nth_error m i = Some y /\ R x y.
Proof. intros l m i y F. revert i. induction F as [|a b l m Hab F IH]; intros [|i] E; cbn [nth_error] in *; try discriminate; [exists b; split; [reflexivity|congruence]|now apply IH]. Qed.
Lemma F2_upd {A B} (R : A -> B -> Prop) : forall l m i x y, Forall2 R l m -> R x y -> Forall2 R (upd l i x) (upd m i y).
Proof. intros l m i x y F Hxy. revert i. induction F as [|a b l m Hab F IH]; intros [|i]; cbn [upd]; constructor; auto. Qed.
Lemma F2_impl {A B} (R R' : A -> B -> Prop) : (forall x y, R x y -> R' x y) -> forall l m, Forall2 R l m -> Forall2 R' l m.
Proof. intros I l m F. induction F; constructor; auto. Qed.
Lemma F2_len {A B} (R : A -> B -> Prop) l m : Forall2 R l m -> length l = length m.
Proof. induction 1; cbn [length]; congruence. Qed.
Lemma upd_self {A} : forall (l : list A) i x, nth_error l i = Some x -> upd l i x = l.
Proof. induction l as [|y l IH]; intros [|i] x E; cbn [nth_error upd] in *; try discriminate; [congruence|]. f_equal. now apply IH. Qed.
Lemma fm_upd {A B} (f : A -> list B) : forall l i x, nth_error l i = Some x -> exists R, Permutation (flat_map f l) (f x ++ R) /\ forall y, Permutation (flat_map f (upd l i y)) (f y ++ R).
Proof.
  induction l as [|z l IH]; intros [|i] x E; cbn [nth_error] in E; try discriminate.
  - assert (z = x) by congruence. subst. exists (flat_map f l). cbn [upd flat_map]. split; [reflexivity|]. intros y. reflexivity.
  - destruct (IH i x E) as (R & P1 & P2). exists (f z ++ R). cbn [upd flat_map]. split; [rewrite P1; apply Permutation_app_swap_app|]. intros y. rewrite P2. apply Permutation_app_swap_app.
Qed.
Lemma live_some {A} (l : list (option A)) i t : live l i = Ok t -> nth_error l i = Some (Some t).
Proof. unfold live. destruct (nth_error l i) as [[x|]|]; congruence. Qed.
Lemma tab_of w v last i t : inv w v last -> live (vt v) i = Ok t -> exists it, live (iw_tabs w) i = Ok it /\ nth_error (iw_tabs w) i = Some (Some it) /\ tab_ok (shape (iw_reg w)) (length (iw_places w)) it t.
Proof.
  intros V L. apply live_some in L. destruct (F2_nth _ _ _ _ _ (i_tabs _ _ _ V) L) as (o & E & K). destruct o as [it|]; [|contradiction]. exists it. unfold live. rewrite E. split; [reflexivity|]. split; [reflexivity|exact K].
Qed.

(** nodes of a table are at their places *)
Lemma touch_ok r H ps Gn Ga k : state r H -> Permutation (handles (shape r) H node_pool) (map fst ps ++ Gn) -> Permutation (handles (shape r) H addr_pool) (map snd ps ++ Ga) -> (k < length ps)%nat -> touch r ps k = Ok tt.
Proof.
  intros St Pn Pa Lk. unfold touch. apply nth_error_Some in Lk. destruct (nth_error ps k) as [[hn ha]|] eqn:E; [|congruence]. apply nth_error_In in E. rewrite (alive_handle r H node_pool hn St), (alive_handle r H addr_pool ha St); [reflexivity| |].
  - apply (Permutation_in _ (Permutation_sym Pa)), in_or_app. left. change ha with (snd (hn, ha)). now apply in_map.
  - apply (Permutation_in _ (Permutation_sym Pn)), in_or_app. left. change hn with (fst (hn, ha)). now apply in_map.
Qed.
Lemma ifind_ok r H ps Gn Ga needle : state r H -> Permutation (handles (shape r) H node_pool) (map fst ps ++ Gn) -> Permutation (handles (shape r) H addr_pool) (map snd ps ++ Ga) ->
  forall c, (forall n, In n c -> (nid n < length ps)%nat) -> ifind r ps c needle = Ok (Ipv4Model.find_match c needle).
Proof.
  intros St Pn Pa. induction c as [|m c IH]; intros N; [reflexivity|]. cbn [ifind Ipv4Model.find_match]. rewrite (touch_ok r H ps Gn Ga) by (try assumption; apply N; now left). cbn [obind]. destruct (addr_cmp (naddr m) needle); [reflexivity|]. apply IH. intros n I. apply N. now right.
Qed.
Lemma isearch_ok r H ps Gn Ga sh it t needle : state r H -> Permutation (handles (shape r) H node_pool) (map fst ps ++ Gn) -> Permutation (handles (shape r) H addr_pool) (map snd ps ++ Ga) -> tab_ok sh (length ps) it t ->
  (forall h, In h (flat_map one (it_rows it)) -> alive r h = true) -> forall x, Ipv4Model.search_node t needle = Ok x -> isearch_node r ps it needle = Ok x /\ forall n, x = Some n -> (nid n < length ps)%nat.
Proof.
  intros St Pn Pa K Al x. unfold isearch_node, Ipv4Model.search_node. rewrite (t_tbl _ _ _ _ K). destruct (tany t) as [n|] eqn:Et.
  - intros E. assert (x = Some n) by congruence. subst x. split; [reflexivity|]. intros m Em. apply (t_nodes _ _ _ _ K). left. congruence.
  - induction (tin t) as [|b l IH]; cbn [isearch_loop Ipv4Model.search_loop]; [discriminate|]. destruct (b =? 0); [intros E; assert (x = None) by congruence; subst x; split; [reflexivity|discriminate]|]. intros E. apply obind_ok in E. destruct E as (m & Em & E). rewrite Em. cbn [obind]. cbv zeta in E |- *. rewrite (t_tbl _ _ _ _ K).
    apply obind_ok in E. destruct E as (row & Er & E). destruct (nth_error (rows t) (Z.to_nat (b - 1))) as [[row'|]|] eqn:En; try discriminate. assert (row' = row) by congruence. subst row'. destruct (F2_nth _ _ _ _ _ (t_rows _ _ _ _ K) En) as (o & Eo & Ho). destruct o as [h|]; [|destruct Ho as [Ho _]; specialize (Ho eq_refl); discriminate]. rewrite Eo.
    assert (Ah : alive r h = true). { apply Al. apply in_flat_map. exists (Some h). split; [now apply nth_error_In in Eo|now left]. } rewrite Ah. cbn [safe obind]. apply obind_ok in E. destruct E as (c & Ec & E). rewrite Ec. cbn [obind]. set (key := Z.to_nat (Z.land (Z.land (a_addr needle) m) (tsz t - 1))) in *. destruct (nth_error row key) as [c'|] eqn:Ek; [|discriminate]. assert (c' = c) by congruence. subst c'.
    assert (Hc : forall n, In n c -> (nid n < length ps)%nat). { intros n I. apply (t_nodes _ _ _ _ K). right. exists (Z.to_nat (b - 1)), row, key, c. auto. }
    rewrite (ifind_ok r H ps Gn Ga) by assumption. cbn [obind]. destruct (Ipv4Model.find_match c needle) as [n|] eqn:Ef.
    + assert (x = Some n) by congruence. subst x. split; [reflexivity|]. intros n' En'. assert (n' = n) by congruence. subst n'. apply Hc. clear - Ef. induction c as [|q c IH]; cbn [Ipv4Model.find_match] in Ef; [discriminate|]. destruct (addr_cmp (naddr q) needle); [left; congruence|right; now apply IH].
    + now apply IH.
Qed.

Lemma pair_mono sh sh' np np' o o' : (forall a n s, In (a, n, s) sh -> In (a, n, s) sh') -> (np <= np')%nat -> pair_ok sh np o o' -> pair_ok sh' np' o o'.
Proof.
  intros I L K. destruct o as [it|], o' as [t|]; try contradiction; [|exact Logic.I]. destruct K as [K1 K2 K3 K4 (a1 & a2 & a3 & K5 & K6 & K7 & K8)]. constructor; try assumption; [intros n Hn; specialize (K4 n Hn); lia|]. exists a1, a2, a3. auto 10.
Qed.
(** adding a node to a table *)
Lemma add_node_shape t n t' : add_node t n = Ok t' -> tsz t' = tsz t /\ (forall m, node_in t' m -> node_in t m \/ m = n) /\
  ((bitlen (naddr n) = 0 /\ rows t' = rows t) \/ (bitlen (naddr n) <> 0 /\ exists o c, nth_error (rows t) (Z.to_nat ((bitlen (naddr n) - 1) mod 256)) = Some o /\ rows t' = upd (rows t) (Z.to_nat ((bitlen (naddr n) - 1) mod 256)) (Some c))).
Proof.
  unfold add_node. cbv zeta. destruct (Z.eqb_spec (bitlen (naddr n)) 0) as [Eb|Eb].
  - intros E. match type of E with Ok ?y = _ => assert (t' = y) by congruence; subst t' end. cbn [tsz rows]. split; [reflexivity|]. split; [|left; auto]. intros m [Hm|Hm]; [right; cbn [tany] in Hm; congruence|left; right; exact Hm].
  - set (k := Z.to_nat _). intros E. apply obind_ok in E. destruct E as (row & Er & E). destruct (nth_error (rows t) k) as [o|] eqn:En; [|discriminate]. assert (o = row) by congruence. subst o. apply obind_ok in E. destruct E as (slot & Es & E). set (chains := match row with Some c => c | None => repeat [] (Z.to_nat (tsz t)) end) in *. set (key := Z.to_nat (Z.land (a_addr (naddr n)) (tsz t - 1))) in *. destruct (nth_error chains key) as [c0|] eqn:Ec; [|discriminate]. assert (c0 = slot) by congruence. subst c0.
    assert (X : tsz t' = tsz t /\ tany t' = tany t /\ rows t' = upd (rows t) k (Some (upd chains key (n :: slot)))). { destruct (Ipv4Model.find_in (tin t) (bitlen (naddr n)) 0) as [i is]. destruct is; [|destruct (i <? length (tin t))%nat; [|discriminate]]; match type of E with Ok ?y = _ => assert (t' = y) by congruence; subst t' end; cbn [tsz tany rows]; auto. }
    destruct X as (X1 & X2 & X3). split; [exact X1|]. split; [|right; split; [exact Eb|exists row, (upd chains key (n :: slot)); split; [reflexivity|exact X3]]].
    intros m [Hm|(k' & row' & j & c & H1 & H2 & H3)]; [left; left; congruence|]. rewrite X3 in H1. rewrite upd_nth_error in H1. destruct (Nat.eqb_spec k' k) as [->|]; [|left; right; exists k', row', j, c; auto]. destruct (k <? length (rows t))%nat; [|discriminate]. assert (row' = upd chains key (n :: slot)) by congruence. subst row'. rewrite upd_nth_error in H2.
    assert (Old : forall j c, nth_error chains j = Some c -> In m c -> node_in t m). { intros j' c' E1 E2. right. unfold chains in E1. destruct row as [r0|]; [exists k, r0, j', c'; auto|]. exfalso. apply nth_error_In in E1. apply repeat_spec in E1. subst c'. destruct E2. }
    destruct (Nat.eqb_spec j key) as [->|]; [|left; now apply (Old j c)]. destruct (key <? length chains)%nat; [|discriminate]. assert (c = n :: slot) by congruence. subst c. destruct H3 as [<-|H3]; [now right|left; now apply (Old key slot)].
Qed.
Lemma iadd_node_ok r H last ps Gr Gn Ga rest it t id hn ha v t' : state r H -> sized last (shape r) -> StronglySorted (fun x y => y <= x) (hsizes (shape r)) ->
  Permutation (handles (shape r) H hash_pool) (flat_map one (it_rows it) ++ rest ++ Gr) -> Permutation (handles (shape r) H node_pool) (map fst (ps ++ [(hn, ha)]) ++ Gn) -> Permutation (handles (shape r) H addr_pool) (map snd (ps ++ [(hn, ha)]) ++ Ga) ->
  tab_ok (shape r) (length ps) it t -> id = length ps -> add_node t (mknode id v) = Ok t' ->
  exists r' it' H', iadd_node r it id hn ha v = Ok (0, it', r') /\ state r' H' /\ shape r' = shape r
    /\ Permutation (handles (shape r) H' hash_pool) (flat_map one (it_rows it') ++ rest ++ Gr) /\ handles (shape r) H' node_pool = handles (shape r) H node_pool /\ handles (shape r) H' addr_pool = handles (shape r) H addr_pool
    /\ length (flat_map one (it_rows it')) = (length (flat_map one (it_rows it)) + no_row t (bitlen v))%nat /\ it_group it' = it_group it /\ tab_ok (shape r) (S (length ps)) it' t'.
Proof.
  intros St Sz So Ph Pn Pa K Eid Ea. destruct names as (D1 & D2 & D3). destruct (add_node_shape _ _ _ Ea) as (S1 & S2 & S3). cbn [naddr] in S3. destruct K as [K1 K2 K3 K4 (a1 & a2 & a3 & K5 & K6 & K7 & K8)].
  assert (An : alive r hn = true). { apply (alive_handle r H node_pool); [exact St|]. apply (Permutation_in _ (Permutation_sym Pn)). apply in_or_app. left. rewrite map_app. apply in_or_app. right. now left. }
  assert (Aa : alive r ha = true). { apply (alive_handle r H addr_pool); [exact St|]. apply (Permutation_in _ (Permutation_sym Pa)). apply in_or_app. left. rewrite map_app. apply in_or_app. right. now left. }
  unfold iadd_node. rewrite An, Aa. cbn [andb safe obind]. rewrite K1, Ea. destruct S3 as [(Eb & Er)|(Eb & o & c & Eo & Er)].
  - rewrite Eb. cbn [Z.eqb]. cbn [obind]. eexists r, _, H. split; [reflexivity|]. split; [exact St|]. split; [reflexivity|]. cbn [it_rows it_group]. split; [exact Ph|]. split; [reflexivity|]. split; [reflexivity|]. split; [unfold no_row; cbn [Z.eqb]; lia|]. split; [reflexivity|].
    constructor; cbn [it_tbl it_rows it_group]; [reflexivity|now rewrite Er|now rewrite Er| |exists a1, a2, a3; rewrite S1; auto]. intros m Hm. destruct (S2 m Hm) as [Hm'| ->]; [specialize (K4 m Hm'); lia|cbn [nid]; lia].
  - replace (bitlen v =? 0) with false by (symmetry; now apply Z.eqb_neq). destruct (get_first r H hash_pool a1 _ St K6) as (l1 & b1 & t1 & l2 & Es & Nn & G). rewrite G. cbn [obind]. cbv zeta. set (blen := Z.to_nat ((bitlen v - 1) mod 256)) in *. destruct (F2_nth _ _ _ _ _ K3 Eo) as (oh & Eh & Hoh). rewrite Eh. cbn [obind].
    assert (Kt : forall h, tab_ok (shape r) (S (length ps)) (mkit (it_group it) (upd (it_rows it) blen (Some h)) t') t'). { intros h. constructor; cbn [it_tbl it_rows it_group]; [reflexivity|rewrite Er, upd_length; exact K2| | |exists a1, a2, a3; rewrite S1; auto]. - rewrite Er. apply F2_upd; [exact K3|]. split; discriminate. - intros m Hm. destruct (S2 m Hm) as [Hm'| ->]; [specialize (K4 m Hm'); lia|cbn [nid]; lia]. }
    destruct oh as [h|].
    + cbn [obind]. assert (Ah : alive r h = true). { apply (alive_handle r H hash_pool); [exact St|]. apply (Permutation_in _ (Permutation_sym Ph)). apply in_or_app. left. apply in_flat_map. exists (Some h). split; [now apply nth_error_In in Eh|now left]. } rewrite Ah. cbn [safe obind]. eexists r, _, H. split; [reflexivity|]. split; [exact St|]. split; [reflexivity|]. cbn [it_rows it_group]. rewrite (upd_self _ _ _ Eh). split; [exact Ph|]. split; [reflexivity|]. split; [reflexivity|]. split; [|split; [reflexivity|specialize (Kt h); now rewrite (upd_self _ _ _ Eh) in Kt]].
      unfold no_row. replace (bitlen v =? 0) with false by (symmetry; now apply Z.eqb_neq). fold blen. rewrite Eo. destruct o as [o|]; [lia|]. exfalso. destruct Hoh as [_ Hoh]. specialize (Hoh eq_refl). discriminate.
    + assert (J1 : In (b1, Some hash_pool, t1) (shape r)) by (rewrite Es; apply in_or_app; right; now left). destruct (take r H hash_pool b1 t1 St J1) as (r' & x & H' & E' & S' & Sh & P' & Q'). rewrite E'. cbn [obind].
      assert (Rm : room r' b1 (SIZEOF_PTR * tsz t) = true). { apply (room_ok r' H' b1 (Some hash_pool) t1 _ S'); [now rewrite Sh|]. unfold SIZEOF_PTR. apply (sorted_first (shape r) hash_pool l1 b1 t1 l2 a1); auto. } rewrite Rm. cbn [safe obind].
      assert (Ah : alive r' (b1, x) = true). { apply (alive_handle r' H' hash_pool); [exact S'|]. rewrite Sh. apply (Permutation_in _ (Permutation_sym P')). now left. } rewrite Ah. cbn [safe obind]. eexists r', _, H'. split; [reflexivity|]. split; [exact S'|]. split; [exact Sh|]. cbn [it_rows it_group]. destruct (fm_upd one (it_rows it) blen None Eh) as (R & P1 & P2). specialize (P2 (Some (b1, x))). cbn [one app] in P1, P2. split; [rewrite P', P2, Ph, P1; reflexivity|]. split; [apply Q'; congruence|]. split; [apply Q'; congruence|]. split; [|split; [reflexivity|apply Kt]].
      etransitivity; [apply (Permutation_length P2)|]. etransitivity; [|apply (f_equal (fun k => (k + no_row t (bitlen v))%nat)); symmetry; apply (Permutation_length P1)]. unfold no_row. replace (bitlen v =? 0) with false by (symmetry; now apply Z.eqb_neq). fold blen. rewrite Eo. destruct o as [o|]; [exfalso; destruct Hoh as [Hoh _]; specialize (Hoh eq_refl); discriminate|]. cbn [length]. lia.
Qed.

(** destroying a pool leaves everything that is in use *)
Lemma SS_filter {A} (g : A -> Z) (f : A -> bool) : forall l, StronglySorted (fun x y => y <= x) (map g l) -> StronglySorted (fun x y => y <= x) (map g (filter f l)).
Proof.
  induction l as [|x l IH]; cbn [map filter]; intros S; [constructor|]. inversion S as [|? ? S1 S2]; subst. destruct (f x); [|now apply IH]. cbn [map]. constructor; [now apply IH|]. rewrite Forall_forall in *. intros y I. apply S2. apply in_map_iff in I. destruct I as (z & <- & Iz). apply filter_In in Iz. now apply in_map.
Qed.
Lemma filter_comm {A} (f g : A -> bool) l : filter f (filter g l) = filter g (filter f l).
Proof. induction l as [|x l IH]; [reflexivity|]. cbn [filter]. destruct (g x) eqn:G, (f x) eqn:F; cbn [filter]; rewrite ?G, ?F, ?IH; reflexivity. Qed.
Lemma kill r H last a n s : state r H -> In (a, n, s) (shape r) -> sized last (shape r) -> StronglySorted (fun x y => y <= x) (hsizes (shape r)) ->
  exists rc r', destroy r a = Ok (rc, r') /\ state r' H /\ sized last (shape r') /\ StronglySorted (fun x y => y <= x) (hsizes (shape r')) /\ (forall m, handles (shape r') H m = handles (shape r) H m) /\ (forall b k t, b <> a -> In (b, k, t) (shape r) -> In (b, k, t) (shape r')) /\ incl (shape r') (shape r) /\ (H a = [] -> forall k t, ~ In (a, k, t) (shape r')).
Proof.
  intros St I Sz So. destruct (destroy_in_ok r H a n s St I) as (r' & D1 & D2 & _). destruct (H a) as [|x l] eqn:Ha.
  - destruct (D1 eq_refl) as (E & Sh & S'). exists 0, r'. split; [exact E|]. split; [exact S'|]. rewrite Sh. split; [|split; [|split; [|split; [|split]]]].
    + intros b k t J. apply filter_In in J. now apply (Sz b).
    + unfold hsizes. rewrite filter_comm. now apply SS_filter.
    + intros m. unfold handles. clear - Ha. induction (shape r) as [|[[b k] t] sh IH]; [reflexivity|]. cbn [filter fst]. destruct (Nat.eqb_spec b a) as [->|]; cbn [negb flat_map fst]; rewrite IH; [|reflexivity]. rewrite Ha. cbn [map]. destruct (is_ m (a, k, t)); reflexivity.
    + intros b k t Nb J. apply filter_In. split; [exact J|]. cbn [fst]. apply negb_true_iff. now apply Nat.eqb_neq.
    + apply incl_filter.
    + intros _ k t J. apply filter_In in J. destruct J as [_ J]. cbn [fst] in J. rewrite Nat.eqb_refl in J. discriminate.
  - destruct D2 as (E & Sh & S'); [discriminate|]. exists (-1), r'. rewrite Sh. split; [exact E|]. split; [exact S'|]. split; [exact Sz|]. split; [exact So|]. split; [reflexivity|]. split; [auto|]. split; [apply incl_refl|discriminate].
Qed.
Lemma idestroy_ok r H last it a1 a2 a3 t : state r H -> sized last (shape r) -> StronglySorted (fun x y => y <= x) (hsizes (shape r)) -> it_group it = [Some a1; Some a2; Some a3] -> a1 <> a2 -> a1 <> a3 -> a2 <> a3 ->
  In (a1, Some hash_pool, t) (shape r) -> In (a2, Some node_pool, 16) (shape r) -> In (a3, Some addr_pool, 16) (shape r) ->
  exists r', idestroy r it = Ok r' /\ state r' H /\ sized last (shape r') /\ StronglySorted (fun x y => y <= x) (hsizes (shape r')) /\ (forall m, handles (shape r') H m = handles (shape r) H m) /\ (forall b k t, b <> a1 -> b <> a2 -> b <> a3 -> In (b, k, t) (shape r) -> In (b, k, t) (shape r')) /\ incl (shape r') (shape r)
    /\ (forall b k t, H b = [] -> b = a1 \/ b = a2 \/ b = a3 -> ~ In (b, k, t) (shape r')).
Proof.
  intros St Sz So Eg N12 N13 N23 I1 I2 I3. unfold idestroy. rewrite Eg. cbn [group_destroy].
  destruct (kill r H last a1 _ _ St I1 Sz So) as (c1 & r1 & E1 & St1 & Sz1 & So1 & P1 & Q1 & U1 & V1). rewrite E1. cbn [obind].
  destruct (kill r1 H last a2 (Some node_pool) 16 St1) as (c2 & r2 & E2 & St2 & Sz2 & So2 & P2 & Q2 & U2 & V2); [apply Q1; [congruence|exact I2]|exact Sz1|exact So1|]. rewrite E2. cbn [obind].
  destruct (kill r2 H last a3 (Some addr_pool) 16 St2) as (c3 & r3 & E3 & St3 & Sz3 & So3 & P3 & Q3 & U3 & V3); [apply Q2; [congruence|apply Q1; [congruence|exact I3]]|exact Sz2|exact So2|]. rewrite E3. cbn [obind].
  exists r3. split; [reflexivity|]. split; [exact St3|]. split; [exact Sz3|]. split; [exact So3|]. split; [intros m; now rewrite P3, P2, P1|]. split; [intros b k u B1 B2 B3 J; apply Q3; [exact B3|]; apply Q2; [exact B2|]; now apply Q1|]. split; [intros q J; now apply U1, U2, U3|].
  intros b k u Hb [-> | [-> | ->]] J; [apply (V1 Hb k u); now apply U2, U3|apply (V2 Hb k u); now apply U3|now apply (V3 Hb k u)].
Qed.
(** making a table *)
Lemma snoc_sorted : forall l (x : Z), StronglySorted (fun x y => y <= x) l -> (forall y, In y l -> x <= y) -> StronglySorted (fun x y => y <= x) (l ++ [x]).
Proof.
  induction l as [|y l IH]; intros x S H; cbn [app]; [repeat constructor|]. inversion S as [|? ? S1 S2]; subst. constructor; [apply IH; [exact S1|intros z I; apply H; now right]|]. rewrite Forall_forall in *. intros z I. apply in_app_or in I. destruct I as [I|[<-|[]]]; [now apply S2|]. apply H. now left.
Qed.
Lemma iinit_gen sys r H a1 a2 a3 size : 4096 <= sys < 2 ^ 63 -> 0 <= size < 2 ^ 32 -> state r H ->
  ~ In a1 (map addr (plist r)) -> ~ In a2 (a1 :: map addr (plist r)) -> ~ In a3 (a2 :: a1 :: map addr (plist r)) ->
  exists r' H', iinit sys r a1 a2 a3 size = Ok (Some (mkit [Some a1; Some a2; Some a3] (repeat None 32) (tbl_init size)), r') /\ state r' H'
    /\ (forall m, handles (shape r') H' m = handles (shape r) H m) /\ shape r' = shape r ++ [(a1, Some hash_pool, 8 * (if size =? 0 then 128 else size)); (a2, Some node_pool, 16); (a3, Some addr_pool, 16)].
Proof.
  intros Sy Sr St N1 N2 N3. unfold iinit. cbv zeta. set (rs := if size =? 0 then 128 else size) in *. assert (Rs : 1 <= rs < 2 ^ 32) by (unfold rs; destruct (Z.eqb_spec size 0); lia). unfold group_init. cbn [group_loop g_name g_elts g_size g_test g_flags].
  unfold SIZEOF_PTR, SIZEOF_NODE, SIZEOF_ADDR.
  destruct (init_in_ok sys r H a1 hash_pool 1 (8 * rs) Sy ltac:(lia) ltac:(lia) ltac:(lia) St N1) as (r1 & E1 & S1 & Sh1 & _). rewrite E1. cbn [obind app]. assert (A1 : map addr (plist r1) = map addr (plist r) ++ [a1]) by (rewrite <- !shape_addr, Sh1, map_app; reflexivity).
  destruct (init_in_ok sys r1 _ a2 node_pool 1 16 Sy ltac:(lia) ltac:(lia) ltac:(lia) S1) as (r2 & E2 & S2 & Sh2 & _). { rewrite A1. intros J. apply N2. apply in_app_or in J. destruct J as [J|[J|[]]]; [now right|now left]. } rewrite E2. cbn [obind app]. assert (A2 : map addr (plist r2) = map addr (plist r1) ++ [a2]) by (rewrite <- !shape_addr, Sh2, map_app; reflexivity).
  destruct (init_in_ok sys r2 _ a3 addr_pool 1 16 Sy ltac:(lia) ltac:(lia) ltac:(lia) S2) as (r3 & E3 & S3 & Sh3 & _). { rewrite A2, A1. intros J. apply N3. apply in_app_or in J. destruct J as [J|[J|[]]]; [|now left]. apply in_app_or in J. destruct J as [J|[J|[]]]; [right; now right|right; now left]. } rewrite E3. cbn [obind app map].
  assert (Sh : shape r3 = shape r ++ [(a1, Some hash_pool, 8 * rs); (a2, Some node_pool, 16); (a3, Some addr_pool, 16)]) by (rewrite Sh3, Sh2, Sh1, <- !app_assoc; reflexivity).
  eexists r3, _. split; [reflexivity|]. split; [exact S3|]. rewrite Sh. split; [|reflexivity].
  - intros m. rewrite handles_app. rewrite <- (app_nil_r (handles (shape r) H m)). f_equal.
    + apply handles_same. intros b k s J. assert (Jb : In b (map addr (plist r))) by (rewrite <- shape_addr; change b with (fst (fst (b, k, s))); now apply in_map with (f := fun x : shp => fst (fst x))). unfold held_now. replace (b =? a3)%nat with false by (symmetry; apply Nat.eqb_neq; intros ->; apply N3; right; now right). replace (b =? a2)%nat with false by (symmetry; apply Nat.eqb_neq; intros ->; apply N2; now right). replace (b =? a1)%nat with false by (symmetry; apply Nat.eqb_neq; intros ->; contradiction). reflexivity.
    + unfold handles. cbn [flat_map fst]. unfold held_now. rewrite !Nat.eqb_refl. assert (X : forall (P : bool) (A : Type) (x : list A), (if P then [] else []) = ([] : list A)) by (intros []; reflexivity). destruct (a1 =? a3)%nat, (a1 =? a2)%nat, (a2 =? a3)%nat; cbn [map]; destruct (is_ m _), (is_ m _), (is_ m _); reflexivity.
Qed.
Lemma iinit_ok sys r H last a1 a2 a3 size : 4096 <= sys < 2 ^ 63 -> 0 <= size < 2 ^ 32 -> state r H -> sized last (shape r) -> StronglySorted (fun x y => y <= x) (hsizes (shape r)) -> (if size =? 0 then 128 else size) <= last ->
  ~ In a1 (map addr (plist r)) -> ~ In a2 (a1 :: map addr (plist r)) -> ~ In a3 (a2 :: a1 :: map addr (plist r)) ->
  exists r' H', iinit sys r a1 a2 a3 size = Ok (Some (mkit [Some a1; Some a2; Some a3] (repeat None 32) (tbl_init size)), r') /\ state r' H' /\ sized (if size =? 0 then 128 else size) (shape r') /\ StronglySorted (fun x y => y <= x) (hsizes (shape r'))
    /\ (forall m, handles (shape r') H' m = handles (shape r) H m) /\ shape r' = shape r ++ [(a1, Some hash_pool, 8 * (if size =? 0 then 128 else size)); (a2, Some node_pool, 16); (a3, Some addr_pool, 16)].
Proof.
  intros Sy Sr St Sz So Le N1 N2 N3. destruct (iinit_gen sys r H a1 a2 a3 size Sy Sr St N1 N2 N3) as (r3 & H3 & E3 & S3 & Hh & Sh). exists r3, H3. split; [exact E3|]. split; [exact S3|]. set (rs := if size =? 0 then 128 else size) in *. rewrite Sh in Hh. rewrite Sh. split; [|split; [|split; [exact Hh|reflexivity]]].
  - intros a n s J. apply in_app_or in J. destruct J as [J|[J|[J|[J|[]]]]].
    + destruct (Sz a n s J) as [(X & Y)|X]; [left; split; [exact X|lia]|now right].
    + left. split; [congruence|]. assert (s = 8 * rs) by congruence. lia.
    + right. left. split; congruence.
    + right. right. split; congruence.
  - unfold hsizes. rewrite filter_app, map_app. cbn [filter]. rewrite is_self, !is_other by discriminate. cbn [map snd]. apply snoc_sorted; [exact So|]. intros y J. apply in_map_iff in J. destruct J as ([[b k] s] & <- & J). apply filter_In in J. destruct J as [J Js]. apply is_true in Js. cbn [fst snd] in *. destruct (Sz b k s J) as [(_ & Y)|[(X & _)|(X & _)]]; [lia|rewrite X in Js; discriminate|rewrite X in Js; discriminate].
Qed.
