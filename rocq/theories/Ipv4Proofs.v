From Verif Require Import Prelude Bits Ipv4Model.
Open Scope Z_scope.

(** ---- specification ---- *)
(** address x lies in the network ip/b *)
Definition in_net (ip b x : Z) : Prop := 0 <= x < 2 ^ 32 /\ x / 2 ^ (32 - b) = ip / 2 ^ (32 - b).
(** every address of ip/b lies in hip/hb *)
Definition within (ip b hip hb : Z) : Prop := forall x, in_net ip b x -> in_net hip hb x.
Definition valid_net (ip b : Z) : Prop := 0 <= ip < 2 ^ 32 /\ 0 <= b <= 32.

Lemma netmask_all : forallb (fun b => match netmask b with Ok m => m =? 2 ^ 32 - 2 ^ (32 - b) | _ => false end) (map Z.of_nat (seq 0 33)) = true.
Proof. vm_compute. reflexivity. Qed.
Lemma netmask_ok b : 0 <= b <= 32 -> netmask b = Ok (2 ^ 32 - 2 ^ (32 - b)).
Proof.
  intros B. pose proof netmask_all as F. rewrite forallb_forall in F. specialize (F b).
  assert (I : In b (map Z.of_nat (seq 0 33))). { apply in_map_iff. exists (Z.to_nat b). split; [lia|]. apply in_seq. lia. }
  specialize (F I). destruct (netmask b); try discriminate. apply Z.eqb_eq in F. now rewrite F.
Qed.
Lemma mask_ip ip k : 0 <= ip < 2 ^ 32 -> 0 <= k <= 32 -> Z.land ip (2 ^ 32 - 2 ^ k) = ip / 2 ^ k * 2 ^ k.
Proof.
  intros H K. assert (P : 0 < 2 ^ k) by (apply Z.pow_pos_nonneg; lia). assert (Q : 2 ^ 32 = 2 ^ (32 - k) * 2 ^ k) by (rewrite <- Z.pow_add_r by lia; f_equal; lia).
  replace (2 ^ 32 - 2 ^ k) with (Z.ones (32 - k) * 2 ^ k) by (rewrite Z.ones_equiv; lia).
  rewrite land_high by lia. rewrite Z.mod_small; [reflexivity|]. split; [apply Z.div_pos; lia|]. apply Z.div_lt_upper_bound; lia.
Qed.
Lemma make_addr_ok ip b : valid_net ip b -> make_addr ip b =
  Ok (mkaddr b (ip / 2 ^ (32 - b) * 2 ^ (32 - b)) (2 ^ 32 - 2 ^ (32 - b)) (ip / 2 ^ (32 - b) * 2 ^ (32 - b) + 2 ^ (32 - b) - 1)).
Proof.
  intros [I B]. unfold make_addr. rewrite (netmask_ok b B). cbn [obind]. rewrite mask_ip by lia.
  set (w := 2 ^ (32 - b)). assert (W : 0 < w <= 2 ^ 32). { split; [apply Z.pow_pos_nonneg; lia|]. apply Z.pow_le_mono_r; lia. }
  assert (E : Z.land ALL (Z.lnot (2 ^ 32 - w)) = w - 1).
  { replace ALL with (Z.ones 32) by reflexivity. rewrite Z.land_comm, Z.land_ones by lia. unfold Z.lnot.
    replace (Z.pred (- (2 ^ 32 - w))) with (w - 1 + (-1) * 2 ^ 32) by lia. rewrite Z.mod_add by lia. apply Z.mod_small. lia. }
  rewrite E. unfold w. rewrite lor_low by (fold w; lia). fold w. do 2 f_equal. lia.
Qed.
Lemma make_addr_inv ip b a : valid_net ip b -> make_addr ip b = Ok a -> bitlen a = b /\ a_addr a = ip / 2 ^ (32 - b) * 2 ^ (32 - b).
Proof.
  intros V E. rewrite (make_addr_ok ip b V) in E. revert E. generalize (2 ^ (32 - b)). intros w. generalize (2 ^ 32 - w). intros m E.
  assert (Ea : mkaddr b (ip / w * w) m (ip / w * w + w - 1) = a) by congruence. rewrite <- Ea. split; reflexivity.
Qed.
Lemma addr_cmp_within ip b a hip hb h : valid_net ip b -> valid_net hip hb -> make_addr ip b = Ok a -> make_addr hip hb = Ok h ->
  (addr_cmp h a = true <-> within ip b hip hb).
Proof.
  intros V1 V2 E1 E2. rewrite make_addr_ok in E1, E2 by assumption. 
  set (w := 2 ^ (32 - b)) in *. set (v := 2 ^ (32 - hb)) in *.
  assert (Ea : a = mkaddr b (ip / w * w) (2 ^ 32 - w) (ip / w * w + w - 1)) by congruence.
  assert (Eh : h = mkaddr hb (hip / v * v) (2 ^ 32 - v) (hip / v * v + v - 1)) by congruence. clear E1 E2. subst a h.
  unfold addr_cmp. cbn [a_addr a_bcast]. destruct V1 as [I1 B1], V2 as [I2 B2].
  assert (W : 0 < w) by (apply Z.pow_pos_nonneg; lia). assert (V : 0 < v) by (apply Z.pow_pos_nonneg; lia).
  assert (QW : 2 ^ 32 = 2 ^ b * w) by (unfold w; rewrite <- Z.pow_add_r by lia; f_equal; lia).
  assert (BND : 0 <= ip / w * w /\ ip / w * w + w - 1 < 2 ^ 32).
  { split; [apply Z.mul_nonneg_nonneg; [apply Z.div_pos; lia|lia]|]. assert (ip / w < 2 ^ b) by (apply Z.div_lt_upper_bound; lia). nia. }
  assert (R : forall x q u, 0 < u -> (x / u = q <-> q * u <= x <= q * u + u - 1)).
  { clear. intros x q u U. split; [intros <-; pose proof (Z.div_mod x u ltac:(lia)); pose proof (Z.mod_pos_bound x u U); nia|].
    intros H. symmetry. apply (Z.div_unique_pos x u q (x - q * u)); lia. }
  unfold within, in_net. fold w v. split.
  - intros H x [X1 X2]. apply andb_prop in H. split; [exact X1|]. apply (R x _ w W) in X2. apply (R x _ v V). lia.
  - intros H. apply andb_true_intro.
    assert (A := H (ip / w * w)). assert (C := H (ip / w * w + w - 1)).
    assert (A1 : (ip / w * w) / w = ip / w) by (apply R; lia). assert (C1 : (ip / w * w + w - 1) / w = ip / w) by (apply R; lia).
    destruct A as [_ A]; [split; [lia|exact A1]|]. destruct C as [_ C]; [split; [lia|exact C1]|].
    apply (R _ _ v V) in A, C. lia.
Qed.
(** the bucket of a containing network is the one searched *)
Lemma within_key ip b hip hb : valid_net ip b -> valid_net hip hb -> within ip b hip hb ->
  Z.land (ip / 2 ^ (32 - b) * 2 ^ (32 - b)) (2 ^ 32 - 2 ^ (32 - hb)) = hip / 2 ^ (32 - hb) * 2 ^ (32 - hb).
Proof.
  intros [I1 B1] [I2 B2] H. set (w := 2 ^ (32 - b)). assert (W : 0 < w) by (apply Z.pow_pos_nonneg; lia).
  assert (QW : 2 ^ 32 = 2 ^ b * w) by (unfold w; rewrite <- Z.pow_add_r by lia; f_equal; lia).
  assert (BND : 0 <= ip / w * w < 2 ^ 32).
  { split; [apply Z.mul_nonneg_nonneg; [apply Z.div_pos; lia|lia]|]. assert (ip / w < 2 ^ b) by (apply Z.div_lt_upper_bound; lia). nia. }
  rewrite mask_ip by lia. destruct (H (ip / w * w)) as [_ E]; [split; [exact BND|fold w; apply Z.div_mul; lia]|]. now rewrite E.
Qed.

(** ---- the table ---- *)
Definition key_of (sz : Z) (n : node) : nat := Z.to_nat (Z.land (a_addr (naddr n)) (sz - 1)).
Definition blen (n : node) : Z := bitlen (naddr n).
Definition good_node (n : node) : Prop := exists ip b, valid_net ip b /\ 1 <= b /\ make_addr ip b = Ok (naddr n).
Definition row_ok (sz : Z) (l : list node) (b : Z) (r : option (list (list node))) : Prop :=
  match r with
  | None => forall n, In n l -> blen n <> b
  | Some c => length c = Z.to_nat sz /\ forall k, (k < Z.to_nat sz)%nat -> nth_error c k = Some (filter (fun n => (blen n =? b) && Nat.eqb (key_of sz n) k) l)
  end.
(** the table (without an any entry) holds the nodes l; [lens] are the prefix lengths in order of first insertion *)
Definition holds (t : tbl) (l : list node) (lens : list Z) : Prop :=
  0 < tsz t /\ tany t = None /\ Forall good_node l /\ length (rows t) = 32%nat /\
  (forall b, 1 <= b <= 32 -> exists r, nth_error (rows t) (Z.to_nat (b - 1)) = Some r /\ row_ok (tsz t) l b r) /\
  NoDup lens /\ (forall b, In b lens <-> exists n, In n l /\ blen n = b) /\
  (length lens <= 32)%nat /\ tin t = lens ++ repeat 0 (32 - length lens).

Lemma good_blen n : good_node n -> 1 <= blen n <= 32.
Proof. intros (ip & b & V & B & E). apply (make_addr_inv ip b _ V) in E. destruct E as [E _]. unfold blen. rewrite E. destruct V. lia. Qed.

Lemma init_holds size : 0 <= size -> holds (tbl_init size) [] [].
Proof.
  intros S. unfold tbl_init, holds. cbn [tsz tany rows tin]. split; [destruct (Z.eqb_spec size 0); lia|]. split; [reflexivity|]. split; [constructor|]. split; [reflexivity|].
  split; [|split; [constructor|split; [|split; [cbn; lia|reflexivity]]]].
  - intros b B. exists None. split; [apply nth_error_repeat; lia|]. intros n [].
  - intros b. split; [intros []|intros (n & [] & _)].
Qed.

Lemma find_in_spec : forall lens z b i, Forall (fun x => x <> 0) lens -> b <> 0 ->
  find_in (lens ++ repeat 0 z) b i = if in_dec Z.eq_dec b lens then (fst (find_in (lens ++ repeat 0 z) b i), true) else ((i + length lens)%nat, false).
Proof.
  induction lens as [|x lens IH]; intros z b i F N; cbn [app find_in].
  - destruct z; cbn [repeat find_in]; destruct (in_dec Z.eq_dec b []) as [[]|]; cbn [length]; now rewrite Nat.add_0_r.
  - inversion F as [|? ? F1 F2]; subst. destruct (Z.eqb_spec x 0); [contradiction|]. destruct (Z.eqb_spec x b) as [->|Nx].
    + destruct (in_dec Z.eq_dec b (b :: lens)) as [|K]; [reflexivity|exfalso; apply K; now left].
    + rewrite IH by assumption. destruct (in_dec Z.eq_dec b lens) as [I|K]; destruct (in_dec Z.eq_dec b (x :: lens)) as [I2|K2]; try reflexivity.
      * exfalso; apply K2; now right.
      * exfalso; destruct I2; [congruence|contradiction].
      * cbn [length]. f_equal. lia.
Qed.

Lemma NoDup_range lens : NoDup lens -> (forall b, In b lens -> 1 <= b <= 32) -> (length lens <= 32)%nat.
Proof.
  intros N R. assert (H : incl lens (map Z.of_nat (seq 1 32))). { intros b Hb. apply R in Hb. apply in_map_iff. exists (Z.to_nat b). split; [lia|]. apply in_seq. lia. }
  apply NoDup_incl_length in H; [|exact N]. rewrite map_length, seq_length in H. exact H.
Qed.
Lemma upd_mid (l1 l2 : list Z) x v : upd (l1 ++ x :: l2) (length l1) v = l1 ++ v :: l2.
Proof. rewrite upd_app_r by lia. now rewrite Nat.sub_diag. Qed.

Lemma add_ok t l lens n : holds t l lens -> good_node n ->
  exists t', add_node t n = Ok t' /\ tsz t' = tsz t /\ holds t' (n :: l) (if in_dec Z.eq_dec (blen n) lens then lens else lens ++ [blen n]).
Proof.
  intros (S & A & G & RL & R & ND & LE & LL & TI) Gn. pose proof (good_blen n Gn) as B. unfold add_node.
  change (bitlen (naddr n)) with (blen n). set (b := blen n) in *. cbv zeta. replace (b =? 0) with false by lia. rewrite (Z.mod_small (b - 1)) by lia.
  destruct (R b B) as (r & Er & Or). rewrite Er. cbn [obind].
  set (k := Z.to_nat (Z.land (a_addr (naddr n)) (tsz t - 1))). assert (K : (k < Z.to_nat (tsz t))%nat). { pose proof (land_le (a_addr (naddr n)) (tsz t - 1) ltac:(lia)). unfold k. lia. }
  set (chains := match r with Some c => c | None => repeat [] (Z.to_nat (tsz t)) end).
  assert (CH : length chains = Z.to_nat (tsz t) /\ forall k', (k' < Z.to_nat (tsz t))%nat -> nth_error chains k' = Some (filter (fun m => (blen m =? b) && Nat.eqb (key_of (tsz t) m) k') l)).
  { destruct r as [c|]; cbn in Or; [exact Or|]. unfold chains. split; [apply repeat_length|]. intros k' Hk. rewrite nth_error_repeat by exact Hk. f_equal. symmetry.
    assert (Z0 : forall m, In m l -> (blen m =? b) && Nat.eqb (key_of (tsz t) m) k' = false). { intros m Hm. specialize (Or m Hm). replace (blen m =? b) with false by lia. reflexivity. }
    clear - Z0. induction l as [|m l IH]; [reflexivity|]. cbn [filter]. rewrite (Z0 m (or_introl eq_refl)). apply IH. intros x Hx. apply Z0. now right. }
  destruct CH as [CL CN]. rewrite (CN k K). cbn [obind].
  assert (LNZ : Forall (fun x => x <> 0) lens). { apply Forall_forall. intros x Hx. apply LE in Hx. destruct Hx as (m & Hm & Eb). rewrite Forall_forall in G. pose proof (good_blen m (G m Hm)). lia. }
  assert (LR : forall x, In x lens -> 1 <= x <= 32). { intros x Hx. apply LE in Hx. destruct Hx as (m & Hm & Eb). rewrite Forall_forall in G. pose proof (good_blen m (G m Hm)). lia. }
  rewrite TI, (find_in_spec lens _ b 0 LNZ) by lia.
  set (rows' := upd (rows t) (Z.to_nat (b - 1)) (Some (upd chains k (n :: filter (fun m => (blen m =? b) && Nat.eqb (key_of (tsz t) m) k) l)))).
  assert (ROWS : forall c, 1 <= c <= 32 -> exists r', nth_error rows' (Z.to_nat (c - 1)) = Some r' /\ row_ok (tsz t) (n :: l) c r').
  { intros c C. unfold rows'. rewrite upd_nth_error. destruct (Nat.eqb_spec (Z.to_nat (c - 1)) (Z.to_nat (b - 1))) as [E|N].
    - assert (c = b) by lia. subst c. rewrite RL. replace (Z.to_nat (b - 1) <? 32)%nat with true by lia. eexists. split; [reflexivity|]. cbn [row_ok].
      rewrite upd_length. split; [exact CL|]. intros k' Hk. rewrite upd_nth_error. cbn [filter]. fold b. replace (b =? b) with true by lia. cbn [andb].
      change (key_of (tsz t) n) with k. destruct (Nat.eqb_spec k' k) as [->|Nk].
      + rewrite Nat.eqb_refl. rewrite CL. replace (k <? Z.to_nat (tsz t))%nat with true by lia. reflexivity.
      + apply not_eq_sym, Nat.eqb_neq in Nk. rewrite Nk. now apply CN.
    - destruct (R c C) as (r' & Er' & Or'). exists r'. split; [exact Er'|]. destruct r' as [c'|]; cbn [row_ok] in *.
      + split; [apply Or'|]. intros k' Hk. cbn [filter]. fold b. replace (b =? c) with false by lia. cbn [andb]. now apply Or'.
      + intros m [<-|Hm]; [fold b; lia|auto]. }
  destruct (in_dec Z.eq_dec b lens) as [I|I].
  - eexists. split; [reflexivity|]. split; [reflexivity|]. unfold holds. cbn [tsz tany rows tin]. split; [exact S|]. split; [exact A|]. split; [constructor; assumption|].
    split; [unfold rows'; now rewrite upd_length|]. split; [exact ROWS|]. split; [exact ND|]. split; [|split; [exact LL|reflexivity]].
    intros c. rewrite LE. split; intros (m & Hm & Em).
    + exists m. split; [now right|exact Em].
    + destruct Hm as [<-|Hm]; [|exists m; auto]. fold b in Em. apply LE in I. destruct I as (m & Hm & E2). exists m. split; [exact Hm|congruence].
  - assert (LT : (length lens < 32)%nat).
    { assert (ND2 : NoDup (b :: lens)) by (constructor; assumption). apply NoDup_range in ND2; [cbn in ND2; lia|]. intros x [<-|Hx]; auto. }
    rewrite app_length, repeat_length. replace (0 + length lens <? length lens + (32 - length lens))%nat with true by lia.
    eexists. split; [reflexivity|]. split; [reflexivity|]. unfold holds. cbn [tsz tany rows tin]. split; [exact S|]. split; [exact A|]. split; [constructor; assumption|].
    split; [unfold rows'; now rewrite upd_length|]. split; [exact ROWS|]. 
    split; [|split; [|split]].
    + rewrite <- (rev_involutive (lens ++ [b])). apply NoDup_rev. rewrite rev_app_distr. cbn. constructor; [now rewrite <- in_rev|now apply NoDup_rev].
    + intros c. rewrite in_app_iff, LE. cbn [In]. split.
      * intros [(m & Hm & Em)|[E|[]]]; [exists m; split; [now right|exact Em]|]. exists n. split; [now left|exact E].
      * intros (m & [E|Hm] & Em); [right; left; subst m; exact Em|left; exists m; auto].
    + rewrite app_length. cbn [length]. lia.
    + cbn [Nat.add]. replace (32 - length lens)%nat with (Datatypes.S (32 - length (lens ++ [b]))) by (rewrite app_length; cbn [length]; lia). cbn [repeat].
      rewrite upd_mid, <- app_assoc. reflexivity.
Qed.

Lemma find_match_spec c a : match find_match c a with
  | Some n => In n c /\ addr_cmp (naddr n) a = true
  | None => forall n, In n c -> addr_cmp (naddr n) a = false end.
Proof.
  induction c as [|m c IH]; cbn [find_match]; [intros n []|]. destruct (addr_cmp (naddr m) a) eqn:E.
  - split; [now left|exact E].
  - destruct (find_match c a); [split; [now right|apply IH]|]. intros n [<-|H]; [exact E|now apply IH].
Qed.

Lemma search_loop_ok t l lens ip b a : holds t l lens -> valid_net ip b -> make_addr ip b = Ok a ->
  forall l2 l1 z, lens = l1 ++ l2 ->
  match search_loop t (l2 ++ repeat 0 z) a with
  | Ok (Some n) => In n l /\ addr_cmp (naddr n) a = true
  | Ok None => forall n, In n l -> In (blen n) l2 -> addr_cmp (naddr n) a = false
  | UB => z = 0%nat /\ forall n, In n l -> In (blen n) l2 -> addr_cmp (naddr n) a = false
  | _ => False
  end.
Proof.
  intros (S & A & G & RL & R & ND & LE & LL & TI) V E. induction l2 as [|c l2 IH]; intros l1 z EL.
  - cbn [app]. destruct z; cbn [repeat search_loop].
    + split; [reflexivity|]. intros n _ [].
    + rewrite Z.eqb_refl. intros n _ [].
  - cbn [app search_loop]. assert (Ic : In c lens) by (rewrite EL; apply in_or_app; right; now left).
    assert (Cr : 1 <= c <= 32). { apply LE in Ic. destruct Ic as (m & Hm & <-). rewrite Forall_forall in G. exact (good_blen m (G m Hm)). }
    replace (c =? 0) with false by lia. rewrite (netmask_ok c) by lia. cbn [obind]. cbv zeta. destruct (R c Cr) as (r & Er & Or). rewrite Er.
    apply LE in Ic. destruct Ic as (m0 & Hm0 & Em0). destruct r as [row|]; [|exfalso; exact (Or m0 Hm0 Em0)]. cbn [obind]. destruct Or as [OL ON].
    set (k := Z.to_nat (Z.land (Z.land (a_addr a) (2 ^ 32 - 2 ^ (32 - c))) (tsz t - 1))).
    assert (K : (k < Z.to_nat (tsz t))%nat). { pose proof (land_le (Z.land (a_addr a) (2 ^ 32 - 2 ^ (32 - c))) (tsz t - 1) ltac:(lia)). unfold k. lia. }
    rewrite (ON k K). cbn [obind]. pose proof (find_match_spec (filter (fun n => (blen n =? c) && Nat.eqb (key_of (tsz t) n) k) l) a) as F.
    destruct (find_match _ a) as [n|].
    + destruct F as [F1 F2]. apply filter_In in F1. split; [apply F1|exact F2].
    + assert (MISS : forall n, In n l -> blen n = c -> addr_cmp (naddr n) a = false).
      { intros n Hn Eb. destruct (addr_cmp (naddr n) a) eqn:C; [|reflexivity]. exfalso.
        rewrite Forall_forall in G. destruct (G n Hn) as (hip & hb & V2 & B2 & E2).
        assert (W : within ip b hip hb) by (apply (addr_cmp_within ip b a hip hb (naddr n)); assumption).
        pose proof (within_key ip b hip hb V V2 W) as WK.
        destruct (make_addr_inv ip b _ V E) as [_ Ea]. destruct (make_addr_inv hip hb _ V2 E2) as [Ehb Eh]. fold (blen n) in Ehb.
        assert (H : hb = c) by congruence. rewrite H in *.
        specialize (F n). rewrite F in C; [discriminate|]. apply filter_In. split; [exact Hn|]. rewrite Eb, Z.eqb_refl. cbn [andb]. apply Nat.eqb_eq.
        unfold key_of, k. rewrite Ea, WK, Eh. reflexivity. }
      specialize (IH (l1 ++ [c]) z ltac:(now rewrite <- app_assoc)).
      destruct (search_loop t (l2 ++ repeat 0 z) a) as [[n|]| | |]; [exact IH| |contradiction| |contradiction].
      * intros n Hn [Hc|Hb]; [apply MISS; [exact Hn|symmetry; exact Hc]|apply IH; assumption].
      * split; [apply IH|]. intros n Hn [Hc|Hb]; [apply MISS; [exact Hn|symmetry; exact Hc]|apply IH; assumption].
Qed.

(** ---- histories of additions ---- *)
Fixpoint add_all (t : tbl) (i : nat) (nets : list (Z * Z)) : outcome tbl :=
  match nets with [] => Ok t | (ip, b) :: r => ' (_, t') <- add_net t i ip b ;; add_all t' (S i) r end.
(** node n is the one made for the i-th added network ip/b *)
Definition node_of (nets : list (Z * Z)) (n : node) (ip b : Z) : Prop :=
  nth_error nets (nid n) = Some (ip, b) /\ make_addr ip b = Ok (naddr n).
Definition has_all_lengths (nets : list (Z * Z)) : Prop := forall b, 1 <= b <= 32 -> exists ip, In (ip, b) nets.

Definition table_for (t : tbl) (nets : list (Z * Z)) : Prop :=
  match tany t with
  | Some n => exists ip, node_of nets n ip 0 /\ valid_net ip 0
  | None => exists l lens, holds t l lens /\ (forall n, In n l -> exists ip b, node_of nets n ip b) /\
              (forall ip b, In (ip, b) nets -> exists n, In n l /\ make_addr ip b = Ok (naddr n)) 
  end.

Lemma table_step t nets ip b : table_for t nets -> valid_net ip b ->
  exists n t', add_net t (length nets) ip b = Ok (n, t') /\ table_for t' (nets ++ [(ip, b)]).
Proof.
  intros H V. unfold add_net. pose proof H as H'. unfold table_for in H. destruct (tany t) as [n|] eqn:A.
  - exists n, t. split; [reflexivity|]. unfold table_for. rewrite A. destruct H as (ip0 & [N1 N2] & V0). exists ip0. split; [|exact V0]. split; [|exact N2].
    rewrite nth_error_app1; [exact N1|]. apply nth_error_Some. congruence.
  - destruct H as (l & lens & Hh & C1 & C2). rewrite (make_addr_ok ip b V). set (a := mkaddr b _ _ _). assert (Ea : make_addr ip b = Ok a) by (rewrite make_addr_ok by exact V; reflexivity).
    cbn [obind]. destruct (Z.eq_dec b 0) as [->|Nb].
    + exists (mknode (length nets) a), (mktbl (rows t) (tin t) (tsz t) (Some (mknode (length nets) a))). split; [reflexivity|]. unfold table_for. cbn [tany]. exists ip. split; [|exact V]. split; [|exact Ea].
      cbn [nid]. rewrite nth_error_app2, Nat.sub_diag by lia. reflexivity.
    + destruct (add_ok t l lens (mknode (length nets) a) Hh) as (t' & E1 & _ & E2).
      { exists ip, b. destruct V. split; [split; assumption|]. split; [lia|exact Ea]. }
      rewrite E1. cbn [obind]. do 2 eexists. split; [reflexivity|]. unfold table_for. pose proof E2 as (_ & A2 & _). rewrite A2. do 2 eexists. split; [exact E2|]. split.
      * intros n [<-|Hn].
        -- exists ip, b. split; [|exact Ea]. cbn [nid]. rewrite nth_error_app2, Nat.sub_diag by lia. reflexivity.
        -- destruct (C1 n Hn) as (ip1 & b1 & N1 & N2). exists ip1, b1. split; [|exact N2]. rewrite nth_error_app1; [exact N1|]. apply nth_error_Some. congruence.
      * intros ip1 b1 H1. apply in_app_or in H1. destruct H1 as [H1|[H1|[]]].
        -- destruct (C2 ip1 b1 H1) as (n & Hn & En). exists n. split; [now right|exact En].
        -- exists (mknode (length nets) a). split; [now left|]. cbn [naddr]. congruence.
Qed.
Lemma table_all : forall nets2 t nets1, table_for t nets1 -> Forall (fun x => valid_net (fst x) (snd x)) nets2 ->
  exists t', add_all t (length nets1) nets2 = Ok t' /\ table_for t' (nets1 ++ nets2).
Proof.
  induction nets2 as [|[ip b] nets2 IH]; intros t nets1 H F; cbn [add_all].
  - exists t. rewrite app_nil_r. auto.
  - inversion F as [|? ? F1 F2]; subst. destruct (table_step t nets1 ip b H F1) as (n & t1 & E1 & E2). rewrite E1. cbn [obind].
    destruct (IH t1 (nets1 ++ [(ip, b)]) E2 F2) as (t' & R1 & R2). rewrite app_length in R1. cbn [length] in R1. rewrite Nat.add_1_r in R1.
    exists t'. split; [exact R1|]. rewrite <- app_assoc in R2. exact R2.
Qed.
Lemma init_table size : 0 <= size -> table_for (tbl_init size) [].
Proof. intros S. unfold table_for. cbn [tany tbl_init]. exists [], []. split; [now apply init_holds|]. split; [intros n []|intros ip b []]. Qed.

Lemma within_zero ip b ip0 : valid_net ip b -> valid_net ip0 0 -> within ip b ip0 0.
Proof.
  intros _ [H _] x [X _]. split; [exact X|]. change (2 ^ (32 - 0)) with (2 ^ 32). rewrite !Z.div_small by assumption. reflexivity.
Qed.

Lemma search_ok t nets ip b : table_for t nets -> Forall (fun x => valid_net (fst x) (snd x)) nets -> valid_net ip b ->
  (exists n hip hb, search_net t ip b = Ok (Some n) /\ node_of nets n hip hb /\ within ip b hip hb) \/
  ((forall hip hb, In (hip, hb) nets -> ~ within ip b hip hb) /\
   (search_net t ip b = Ok None \/ (search_net t ip b = UB /\ has_all_lengths nets))).
Proof.
  intros H FV V. assert (FV' : forall hip hb, In (hip, hb) nets -> valid_net hip hb). { intros hip hb Hi. rewrite Forall_forall in FV. exact (FV _ Hi). }
  unfold search_net. pose proof (make_addr_ok ip b V) as Em. destruct (make_addr ip b) as [a| | |] eqn:Ea; try discriminate. clear Em. cbn [obind].
  unfold search_node. unfold table_for in H. destruct (tany t) as [n|] eqn:A.
  - left. destruct H as (ip0 & N & V0). exists n, ip0, 0. split; [reflexivity|]. split; [exact N|]. now apply within_zero.
  - destruct H as (l & lens & Hh & C1 & C2). pose proof Hh as (_ & _ & G & _ & _ & ND & LE & LL & TI). rewrite TI.
    assert (LR : forall x, In x lens -> 1 <= x <= 32). { intros x Hx. apply LE in Hx. destruct Hx as (m & Hm & <-). rewrite Forall_forall in G. exact (good_blen m (G m Hm)). }
    pose proof (search_loop_ok t l lens ip b a Hh V Ea lens [] (32 - length lens) eq_refl) as SL.
    assert (MISS : (forall n, In n l -> In (blen n) lens -> addr_cmp (naddr n) a = false) -> forall hip hb, In (hip, hb) nets -> ~ within ip b hip hb).
    { intros M hip hb Hi W. destruct (C2 hip hb Hi) as (n & Hn & En).
      assert (addr_cmp (naddr n) a = true) by (apply (addr_cmp_within ip b a hip hb (naddr n)); auto).
      rewrite M in H; [discriminate|exact Hn|]. apply LE. exists n. auto. }
    destruct (search_loop t (lens ++ repeat 0 (32 - length lens)) a) as [[n|]| | |].
    + destruct SL as [S1 S2]. left. destruct (C1 n S1) as (hip & hb & N1 & N2). exists n, hip, hb. split; [reflexivity|]. split; [split; assumption|].
      apply (addr_cmp_within ip b a hip hb (naddr n)); auto. apply FV'. eapply nth_error_In; eauto.
    + right. split; [apply MISS; exact SL|now left].
    + contradiction.
    + destruct SL as [S1 S2]. right. split; [apply MISS; exact S2|]. right. split; [reflexivity|].
      intros c C. assert (L32 : length lens = 32%nat) by lia.
      assert (I : In c lens).
      { apply (NoDup_length_incl ND (l' := map Z.of_nat (seq 1 32))).
        - rewrite map_length, seq_length. lia.
        - intros x Hx. apply LR in Hx. apply in_map_iff. exists (Z.to_nat x). split; [lia|]. apply in_seq. lia.
        - apply in_map_iff. exists (Z.to_nat c). split; [lia|]. apply in_seq. lia. }
      apply LE in I. destruct I as (m & Hm & Em). destruct (C1 m Hm) as (hip & hb & N1 & N2). exists hip.
      assert (hb = c). { apply make_addr_inv in N2; [|apply FV'; eapply nth_error_In; eauto]. unfold blen in Em. destruct N2. congruence. }
      subst hb. eapply nth_error_In; eauto.
    + contradiction.
Qed.

(** ---- parsing ---- *)
Definition plain (s : list Z) : Prop := Forall (fun c => c <> 0 /\ c <> 47) s.
Lemma slash_at : forall s r i, plain s -> slash (s ++ 47 :: r) i = Ok (Some (i + length s)%nat).
Proof.
  induction s as [|c s IH]; intros r i P; cbn [app slash length].
  - now rewrite Z.eqb_refl, Nat.add_0_r.
  - inversion P as [|? ? [P1 P2] P3]; subst. destruct (Z.eqb_spec c 47); [contradiction|]. destruct (Z.eqb_spec c 0); [contradiction|].
    rewrite IH by exact P3. do 2 f_equal. lia.
Qed.
(** decimal text *)
Fixpoint dec_value (s : list Z) (acc : Z) : Z := match s with [] => acc | c :: r => dec_value r (acc * 10 + (c - 48)) end.
Definition isdigit (c : Z) : Prop := 48 <= c <= 57.
Lemma dec_mono : forall s acc, Forall isdigit s -> 0 <= acc -> acc <= dec_value s acc.
Proof. induction s as [|c s IH]; intros acc F A; cbn [dec_value]; [lia|]. inversion F as [|? ? F1 F2]; subst. unfold isdigit in F1. specialize (IH (acc * 10 + (c - 48)) F2 ltac:(lia)). lia. Qed.
Lemma digits_ok : forall s t acc, Forall isdigit s -> 0 <= acc -> dec_value s acc < 2147483648 -> digits (s ++ 0 :: t) acc = Ok (dec_value s acc).
Proof.
  induction s as [|c s IH]; intros t acc F A B; cbn [app digits dec_value] in *; [reflexivity|].
  inversion F as [|? ? F1 F2]; subst. unfold isdigit in F1. replace ((48 <=? c) && (c <=? 57)) with true by lia. cbv zeta.
  pose proof (dec_mono s (acc * 10 + (c - 48)) F2 ltac:(lia)). replace (acc * 10 + (c - 48) >? 2147483648) with false by lia. apply IH; auto; lia.
Qed.
Lemma str2net_ok inet s ds t : plain s -> (length s <= 15)%nat -> Forall isdigit ds -> ds <> [] -> dec_value ds 0 < 2147483648 ->
  str2net inet (s ++ 47 :: ds ++ 0 :: t) = Ok (Some (inet (s ++ repeat 0 (16 - length s)), Z.min (dec_value ds 0) 32)).
Proof.
  intros P L D N B. unfold str2net. rewrite slash_at by exact P. cbn [obind Nat.add].
  replace (skipn (S (length s)) (s ++ 47 :: ds ++ 0 :: t)) with (ds ++ 0 :: t) by (rewrite skipn_app, skipn_all2 by lia; replace (S (length s) - length s)%nat with 1%nat by lia; reflexivity).
  assert (A : atoi (ds ++ 0 :: t) = Ok (dec_value ds 0)).
  { destruct ds as [|c ds]; [congruence|]. inversion D as [|? ? D1 D2]; subst. unfold isdigit in D1. cbn [app atoi]. unfold isspace.
    replace ((c =? 32) || ((9 <=? c) && (c <=? 13))) with false by lia. replace (c =? 45) with false by lia. replace (c =? 43) with false by lia.
    change (c :: ds ++ 0 :: t) with ((c :: ds) ++ 0 :: t). rewrite digits_ok by (auto; lia). cbn [obind]. replace (dec_value (c :: ds) 0 =? 2147483648) with false by lia. reflexivity. }
  rewrite A. cbn [obind]. unfold MAXLINE. replace (16 - 1 <? length s)%nat with false by lia. unfold copy_save. rewrite app_length. replace (Nat.ltb (length s + length (47 :: ds ++ 0 :: t)) (length s)) with false by (symmetry; apply Nat.ltb_ge; lia). cbn [obind].
  rewrite firstn_app, firstn_all, Nat.sub_diag. cbn [firstn]. rewrite app_nil_r. do 3 f_equal. destruct (Z.gtb_spec (dec_value ds 0) 32); lia.
Qed.
