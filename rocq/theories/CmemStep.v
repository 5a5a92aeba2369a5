(** Every step of a program on configurations in memory follows the step on values. *)
From Coq Require Import Permutation.
From Verif Require Import Prelude AmemModel AmemProofs OptsModel OptsProofs CfgModel CfgSpec CfgProofs CmemModel CmemSpec Perm CmemProofs CmemSim.
Local Open Scope Z_scope.

(** freeing *)
Lemma free_vals_ok : forall l m R fuel, heap m (cells_v l ++ R) -> (length l <= fuel)%nat -> exists m', m_free_vals fuel m (hd_v l) = Ok m' /\ heap m' R.
Proof.
  induction l as [|x l IH]; intros m R fuel H Le; [exists m; split; [destruct fuel; reflexivity|exact H]|]. cbn [length] in Le. destruct fuel as [|fuel]; [lia|]. cbn [cells_v] in H. cbn [hd_v m_free_vals]. unfold rd_val. rewrite (heap_get _ _ _ _ H). cbn [obind].
  assert (X : exists m1, (match cv (ve x) with VStr s => cfree m s | _ => Ok m end) = Ok m1 /\ heap m1 ((vna x, CStr (vnm x)) :: (va x, CVal (Some (vna x)) (cv (ve x)) (hd_v l)) :: cells_v l ++ R)).
  { destruct (ve x) as [z|z|t|p s|p rb rv]; cbn [cv strs app] in *; try (exists m; split; [reflexivity|apply (heap_perm _ _ _ H); perm]). apply (heap_free m p (CStr s)). apply (heap_perm _ _ _ H). perm. }
  destruct X as (m1 & E1 & H1). rewrite E1. cbn [obind cfree_opt]. destruct (heap_free _ _ _ _ H1) as (m2 & E2 & H2). rewrite E2. cbn [obind]. destruct (heap_free _ _ _ _ H2) as (m3 & E3 & H3). rewrite E3. cbn [obind]. apply IH; [exact H3|lia].
Qed.
Lemma free_blocks_ok : forall A m R fuel, heap m (cells_b A ++ R) -> (length A <= fuel)%nat -> exists m', m_free_blocks fuel m (hd_b A) = Ok m' /\ heap m' R.
Proof.
  induction A as [|x A IH]; intros m R fuel H Le; [exists m; split; [destruct fuel; reflexivity|exact H]|]. cbn [length] in Le. destruct fuel as [|fuel]; [lia|]. cbn [cells_b] in H. cbn [hd_b m_free_blocks]. unfold rd_blk. rewrite (heap_get _ _ _ _ H). cbn [obind].
  destruct (free_vals_ok (bvs x) m ((bna x, CStr (bnm x)) :: (ba x, CBlk (Some (bna x)) (hd_v (bvs x)) (hd_b A)) :: cells_b A ++ R) (size m)) as (m1 & E1 & H1).
  { apply (heap_perm _ _ _ H). perm. } { rewrite (heap_size _ _ H). cbn [app length]. rewrite !app_length. pose proof (len_v (bvs x)). lia. }
  rewrite E1. cbn [obind cfree_opt]. destruct (heap_free _ _ _ _ H1) as (m2 & E2 & H2). rewrite E2. cbn [obind]. destruct (heap_free _ _ _ _ H2) as (m3 & E3 & H3). rewrite E3. cbn [obind]. apply IH; [exact H3|lia].
Qed.
Lemma close_ok m c fn name A R : heap m (conf c (Some fn) A ++ (fn, CStr name) :: R) -> exists m', m_close m c = Ok m' /\ heap m' R.
Proof.
  intros H. unfold m_close. rewrite (conf_cfg _ _ _ _ _ H). cbn [obind]. destruct (free_blocks_ok A m ((fn, CStr name) :: (c, CCfg (Some fn) (hd_b A)) :: R) (size m)) as (m1 & E1 & H1); [apply (heap_perm _ _ _ H); unfold conf; perm|apply (conf_size _ _ _ _ _ H)|]. rewrite E1. cbn [obind cfree_opt].
  destruct (heap_free _ _ _ _ H1) as (m2 & E2 & H2). rewrite E2. cbn [obind]. exact (heap_free _ _ _ _ H2).
Qed.

(** reading *)
Lemma get_ok m c f A R fuel b v t rc e : heap m (conf c f A ++ R) -> refs_ok A -> get fuel (erase A) b v t = Ok (rc, e) ->
  exists x, m_get fuel m c b v t = Ok (rc, x) /\ match e with None => x = None | Some (EString s) => exists p, x = Some (VStr p) /\ In (p, CStr s) (cells_b A) | Some (EBool z) => x = Some (VBool z) | Some (EInt z) => x = Some (VInt z) | Some (EFloat z) => x = Some (VFloat z) | Some (ERef _ _) => False end.
Proof.
  intros H Rf. unfold get, m_get. rewrite (conf_cfg _ _ _ _ _ H). cbn [obind]. rewrite (conf_block _ _ _ _ _ b H). cbn [obind]. rewrite aloc_erase. destruct (find_b A b) as [x|] eqn:F; cbn [option_map].
  - assert (I : In x A) by now apply find_b_in in F. destruct (conf_rd_blk _ _ _ _ _ x H I) as (nx & Eb). rewrite Eb. cbn [obind]. rewrite (conf_variable _ _ _ _ _ x v H I). cbn [obind]. unfold aloc. rewrite F. destruct (find_v (bvs x) v) as [y|] eqn:Fv; cbn [option_map].
    + intros E. apply obind_ok in E. destruct E as (e1 & E1 & E). assert (L : aloc A b v = Some y) by (unfold aloc; now rewrite F). destruct (resolve_ok A m Rf (conf_sub _ _ _ _ _ H) fuel b v y e1 L E1) as (b' & v' & z & Lz & Ez & Nz & Rz). rewrite Rz. cbn [obind]. assert (Ty : type_of e1 = vtype (cv (ve z))) by (rewrite <- Ez; destruct (ve z); reflexivity). rewrite Ty in E. destruct (code (vtype (cv (ve z))) =? code t).
      * assert (rc = code t /\ e = Some e1) as (-> & ->) by (split; congruence). eexists. split; [reflexivity|]. rewrite <- Ez. destruct (ve z) as [q|q|q|p s|p rb rv] eqn:Eq; cbn [er cv]; try reflexivity; [|now apply (Nz p rb rv)]. exists p. split; [reflexivity|]. destruct (aloc_in _ _ _ _ Lz) as (u & Iu & Iz). apply (vals_in A u Iu). clear - Iz Eq. induction (bvs u) as [|w l IH]; [destruct Iz|]. cbn [cells_v]. right. right. apply in_or_app. destruct Iz as [->|Iz]; [left; rewrite Eq; now left|right; now apply IH].
      * assert (rc = -1 /\ e = None) as (-> & ->) by (split; congruence). eexists. split; reflexivity.
    + intros E. assert (rc = -1 /\ e = None) as (-> & ->) by (split; congruence). eexists. split; reflexivity.
  - unfold aloc. rewrite F. cbn [option_map]. intros E. assert (rc = -1 /\ e = None) as (-> & ->) by (split; congruence). eexists. split; reflexivity.
Qed.

Section S.
Variable pick : nat -> list nat -> nat.
Hypothesis fresh : forall k l, ~ In (pick k l) l.
Variable isfloat : text -> bool.

Lemma set_ok m c f A R b v a rc st' : heap m (conf c f A ++ R) -> refs_ok A -> set isfloat (erase A) b v a = (rc, st') ->
  exists m' A' L, m_set pick isfloat m c b v a = Ok (rc, m') /\ heap m' (conf c f A' ++ L ++ R) /\ refs_ok A' /\ erase A' = st' /\ length L = (if rc <? 0 then 3%nat else dropped (erase A) b v) /\ (forall p s, In (p, CStr s) (cells_b A) -> In (p, CStr s) (cells_b A' ++ L)).
Proof.
  intros H Rf E. unfold m_set. destruct (heap_new pick fresh m (CStr b) _ H) as (bp & m1 & E1 & H1). rewrite E1. destruct (heap_new pick fresh m1 (CStr v) _ H1) as (vp & m2 & E2 & H2). rewrite E2. destruct (heap_new pick fresh m2 (CStr []) _ H2) as (tp & m3 & E3 & H3). rewrite E3.
  assert (Go : forall t, exists m' A' L, (let m4 := put m3 tp (CStr (bounded t)) in m5 <- m_insert pick isfloat m4 c bp vp tp;; m6 <- cfree m5 bp;; m7 <- cfree m6 vp;; m8 <- cfree m7 tp;; Ok (1, m8)) = Ok (1, m') /\ heap m' (conf c f A' ++ L ++ R) /\ refs_ok A' /\ erase A' = insert isfloat (erase A) b v (bounded t) /\ length L = dropped (erase A) b v /\ (forall p s, In (p, CStr s) (cells_b A) -> In (p, CStr s) (cells_b A' ++ L))).
  { intros t. cbv zeta. destruct (insert_ok pick fresh isfloat (put m3 tp (CStr (bounded t))) c f A R bp vp tp b v (bounded t)) as (m5 & A5 & L & t' & E5 & H5 & Rf5 & Er5 & Dr & Str); [|exact Rf|].
    - apply (heap_perm _ ((tp, CStr (bounded t)) :: (vp, CStr v) :: (bp, CStr b) :: conf c f A ++ R)); [now apply (heap_put _ _ (CStr []))|perm].
    - rewrite E5. cbn [obind]. assert (H6 : heap m5 ((bp, CStr b) :: (vp, CStr v) :: (tp, CStr t') :: conf c f A5 ++ L ++ R)) by (apply (heap_perm _ _ _ H5); perm). destruct (heap_free _ _ _ _ H6) as (m6 & E6 & H7). rewrite E6. cbn [obind]. destruct (heap_free _ _ _ _ H7) as (m7 & E7 & H8). rewrite E7. cbn [obind]. destruct (heap_free _ _ _ _ H8) as (m8 & E8 & H9). rewrite E8. cbn [obind].
      exists m8, A5, L. auto 10. }
  destruct a as [n|t|s| |s]; cbn [set] in E; try (match goal with |- context [bounded ?t] => destruct (Go t) as (m' & A' & L & Q1 & Q2 & Q3 & Q4 & Q5 & Q6) end; assert (rc = 1 /\ st' = erase A') as (-> & ->) by (split; congruence); exists m', A', L; auto 10).
  assert (rc = -1 /\ st' = erase A) as (-> & ->) by (split; congruence). exists m3, A, [(tp, CStr []); (vp, CStr v); (bp, CStr b)]. split; [reflexivity|]. split; [apply (heap_perm _ _ _ H3); perm|]. split; [exact Rf|]. split; [reflexivity|]. split; [reflexivity|]. intros p s J. apply in_or_app. now left.
Qed.

Definition named (blk : option nat) (s : option text) : list (nat * cell) := match blk, s with Some p, Some s => [(p, CStr s)] | _, _ => [] end.
Definition same_shape (blk : option nat) (s : option text) : Prop := match blk, s with Some _, Some _ | None, None => True | _, _ => False end.
Lemma parse_ok : forall n fl m c f A R blk s L0 k rc st' k' s', heap m (conf c f A ++ named blk s ++ L0 ++ R) -> same_shape blk s -> refs_ok A -> length L0 = k -> vparse isfloat n fl s (erase A) k = Ok (rc, st', k', s') ->
  exists m' A' L blk', m_parse pick isfloat n fl blk m c = Ok (rc, m') /\ heap m' (conf c f A' ++ named blk' s' ++ L ++ R) /\ same_shape blk' s' /\ refs_ok A' /\ erase A' = st' /\ length L = k'.
Proof.
  induction n as [|n IH]; intros fl m c f A R blk s L0 k rc st' k' s' H Sh Rf Lk E; destruct fl as [|ch r]; cbn [vparse m_parse] in *; try discriminate.
  - assert (rc = 0 /\ st' = erase A /\ k' = k /\ s' = None) as (-> & -> & -> & ->) by (repeat split; congruence). destruct blk as [p|], s as [t|]; cbn [same_shape named app cfree_opt] in *; try contradiction.
    + assert (H1 : heap m ((p, CStr t) :: conf c f A ++ L0 ++ R)) by (apply (heap_perm _ _ _ H); perm). destruct (heap_free _ _ _ _ H1) as (m1 & E1 & H2). rewrite E1. cbn [obind]. exists m1, A, L0, None. cbn [named app same_shape]. auto 10.
    + exists m, A, L0, None. cbn [named app same_shape obind]. auto 10.
  - assert (rc = 0 /\ st' = erase A /\ k' = k /\ s' = None) as (-> & -> & -> & ->) by (repeat split; congruence). destruct blk as [p|], s as [t|]; cbn [same_shape named app cfree_opt] in *; try contradiction.
    + assert (H1 : heap m ((p, CStr t) :: conf c f A ++ L0 ++ R)) by (apply (heap_perm _ _ _ H); perm). destruct (heap_free _ _ _ _ H1) as (m1 & E1 & H2). rewrite E1. cbn [obind]. exists m1, A, L0, None. cbn [named app same_shape]. auto 10.
    + exists m, A, L0, None. cbn [named app same_shape obind]. auto 10.
  - destruct (ch =? 10); [now apply (IH r m c f A R blk s L0 k)|]. destruct (ch =? 91).
    + assert (X : exists m1, cfree_opt m blk = Ok m1 /\ heap m1 (conf c f A ++ L0 ++ R)). { destruct blk as [p|], s as [t|]; cbn [same_shape named app cfree_opt] in *; try contradiction; [apply (heap_free m p (CStr t)); apply (heap_perm _ _ _ H); perm|eauto]. }
      destruct X as (m1 & E1 & H1). rewrite E1. cbn [obind]. destruct (read_block r 0) as [x r1]. destruct x as [x|].
      * destruct (heap_new pick fresh m1 (CStr (cut0 x)) _ H1) as (p & m2 & E2 & H2). rewrite E2. apply (IH _ m2 c f A R (Some p) (Some (cut0 x)) L0 k); try assumption; [|exact Logic.I]. apply (heap_perm _ _ _ H2). cbn [named]. perm.
      * apply (IH _ m1 c f A R None None L0 k); try assumption. exact Logic.I.
    + destruct ((ch =? 59) || (ch =? 35)); [now apply (IH _ m c f A R blk s L0 k)|]. destruct (isblank ch); [now apply (IH _ m c f A R blk s L0 k)|]. apply obind_ok in E. destruct E as ([kv r1] & Ep & E). rewrite Ep. cbn [obind]. destruct kv as [[var val]|].
      * destruct s as [b|]; [|discriminate]. destruct blk as [bp|]; [|contradiction]. cbn [named] in H.
        destruct (heap_new pick fresh m (CStr var) _ H) as (vp & m1 & E1 & H1). rewrite E1. destruct (heap_new pick fresh m1 (CStr val) _ H1) as (tp & m2 & E2 & H2). rewrite E2.
        destruct (insert_ok pick fresh isfloat m2 c f A (L0 ++ R) bp vp tp b var val) as (m3 & A3 & L & t' & E3 & H3 & Rf3 & Er3 & Dr & Str); [apply (heap_perm _ _ _ H2); perm|exact Rf|]. rewrite E3. cbn [obind].
        assert (H4 : heap m3 ((vp, CStr var) :: (tp, CStr t') :: conf c f A3 ++ (bp, CStr b) :: L ++ L0 ++ R)) by (apply (heap_perm _ _ _ H3); perm). destruct (heap_free _ _ _ _ H4) as (m4 & E4 & H5). rewrite E4. cbn [obind]. destruct (heap_free _ _ _ _ H5) as (m5 & E5 & H6). rewrite E5. cbn [obind].
        apply (IH r1 m5 c f A3 R (Some bp) (Some b) (L ++ L0) (k + dropped (erase A) b var)%nat); [apply (heap_perm _ _ _ H6); cbn [named]; perm|exact Logic.I|exact Rf3|rewrite app_length; lia|now rewrite Er3].
      * assert (rc = -1 /\ st' = erase A /\ k' = k /\ s' = s) as (-> & -> & -> & ->) by (repeat split; congruence). exists m, A, L0, blk. auto 10.
Qed.
Lemma scells_ok A : length (cells_b A) = scells (erase A).
Proof.
  assert (V : forall l, length (cells_v l) = vcells (erase_v l)). { induction l as [|x l IH]; [reflexivity|]. cbn [cells_v erase_v map length]. unfold vcells in *. cbn [map list_sum fold_right snd]. rewrite app_length, IH. destruct (ve x); cbn [strs length er]; reflexivity. }
  induction A as [|x A IH]; [reflexivity|]. change (scells (erase (x :: A))) with ((2 + vcells (erase_v (bvs x))) + scells (erase A))%nat. cbn [cells_b length]. rewrite app_length, IH, V. lia.
Qed.

(** the world *)
Definition cfgs : Type := nat * nat * text * list ablk.   (* address, address of the file name, file name, layout *)
Definition call (o : option cfgs) : list (nat * cell) := match o with Some (c, fn, nm, A) => conf c (Some fn) A ++ [(fn, CStr nm)] | None => [] end.
Definition caddr (o : option cfgs) : option nat := match o with Some (c, _, _, _) => Some c | None => None end.
Definition cval_ (o : option cfgs) : option store := match o with Some (_, _, _, A) => Some (erase A) | None => None end.
Definition cok (o : option cfgs) : Prop := match o with Some (_, _, _, A) => refs_ok A | None => True end.
Definition ccells (G : list (option cfgs)) : list (nat * cell) := flat_map call G.
Record inv (w : cworld) (v : vworld) (G : list (option cfgs)) (L : list (nat * cell)) : Prop := mkinv {
  i_heap : heap (cm w) (ccells G ++ L);
  i_addr : ccfg w = map caddr G;
  i_val : vcfg v = map cval_ G;
  i_ok : Forall cok G;
  i_lost : length L = vlost v;
  i_hand : Forall2 (fun (it : nat * text) (p : nat) => forall o, nth_error G (fst it) = Some (Some o) -> In (p, CStr (snd it)) (call (Some o) ++ L)) (vhand v) (chand w) }.

Lemma live_some {B} (l : list (option B)) i t : live l i = Ok t -> nth_error l i = Some (Some t).
Proof. unfold live. destruct (nth_error l i) as [[x|]|]; congruence. Qed.
Lemma get_cfg w v G L i st : inv w v G L -> live (vcfg v) i = Ok st -> exists c fn nm A, nth_error G i = Some (Some (c, fn, nm, A)) /\ erase A = st /\ live (ccfg w) i = Ok c /\ refs_ok A.
Proof.
  intros V E. apply live_some in E. rewrite (i_val _ _ _ _ V), nth_error_map in E. destruct (nth_error G i) as [o|] eqn:Eg; [|discriminate]. cbn [option_map] in E. destruct o as [[[[c fn] nm] A]|]; [|discriminate]. cbn [cval_] in E. exists c, fn, nm, A. split; [reflexivity|]. split; [congruence|]. split.
  - unfold live. rewrite (i_addr _ _ _ _ V), nth_error_map, Eg. reflexivity.
  - pose proof (i_ok _ _ _ _ V) as Fo. rewrite Forall_forall in Fo. apply nth_error_In in Eg. exact (Fo _ Eg).
Qed.
Lemma split_at G i o : nth_error G i = Some o -> exists R, Permutation (ccells G) (call o ++ R) /\ forall o', Permutation (ccells (upd G i o')) (call o' ++ R).
Proof.
  unfold ccells. revert i. induction G as [|z G IH]; intros [|i] E; cbn [nth_error] in E; try discriminate.
  - assert (z = o) by congruence. subst. exists (flat_map call G). cbn [upd flat_map]. split; [reflexivity|]. intros y. reflexivity.
  - destruct (IH i E) as (R & P1 & P2). exists (call z ++ R). cbn [upd flat_map]. split; [rewrite P1; perm|]. intros y. rewrite P2. perm.
Qed.
Lemma map_upd {B C} (g : B -> C) : forall l i x, map g (upd l i x) = upd (map g l) i (g x).
Proof. induction l as [|y l IH]; intros [|i] x; cbn [upd map]; [reflexivity|reflexivity|reflexivity|]. f_equal. apply IH. Qed.
Lemma upd_self {B} : forall (l : list B) i x, nth_error l i = Some x -> upd l i x = l.
Proof. induction l as [|y l IH]; intros [|i] x E; cbn [nth_error upd] in *; try discriminate; [congruence|]. f_equal. now apply IH. Qed.
Lemma Forall_upd {B} (P : B -> Prop) : forall l i x, Forall P l -> P x -> Forall P (upd l i x).
Proof. induction l as [|y l IH]; intros [|i] x F Px; cbn [upd]; inversion F; subst; constructor; auto. Qed.
Lemma F2_impl {B C} (R R' : B -> C -> Prop) : (forall x y, R x y -> R' x y) -> forall l m, Forall2 R l m -> Forall2 R' l m.
Proof. intros I l m F. induction F; constructor; auto. Qed.
Lemma F2_app {B C} (R : B -> C -> Prop) l m l' m' : Forall2 R l m -> Forall2 R l' m' -> Forall2 R (l ++ l') (m ++ m').
Proof. induction 1; cbn [app]; auto. Qed.
Lemma F2_nth {B C} (R : B -> C -> Prop) : forall l m i x, Forall2 R l m -> nth_error l i = Some x -> exists y, nth_error m i = Some y /\ R x y.
Proof. intros l m i x F. revert i. induction F as [|a b l m Hab F IH]; intros [|i] E; cbn [nth_error] in *; try discriminate; [exists b; split; [reflexivity|congruence]|now apply IH]. Qed.
Lemma hand_more G L G' L' (vh : list (nat * text)) ch : (forall i o, nth_error G' i = Some (Some o) -> exists o0, nth_error G i = Some (Some o0) /\ forall p s, In (p, CStr s) (call (Some o0) ++ L) -> In (p, CStr s) (call (Some o) ++ L') ) ->
  Forall2 (fun (it : nat * text) (p : nat) => forall o, nth_error G (fst it) = Some (Some o) -> In (p, CStr (snd it)) (call (Some o) ++ L)) vh ch -> Forall2 (fun (it : nat * text) (p : nat) => forall o, nth_error G' (fst it) = Some (Some o) -> In (p, CStr (snd it)) (call (Some o) ++ L')) vh ch.
Proof. intros K. apply F2_impl. intros [i s] p Hp o Eo. cbn [fst snd] in *. destruct (K i o Eo) as (o0 & E0 & K0). apply K0. now apply Hp. Qed.

Lemma vparse_end : forall n fl s st k rc st' k' s', vparse isfloat n fl s st k = Ok (rc, st', k', s') -> rc = -1 \/ (rc = 0 /\ s' = None).
Proof.
  induction n as [|n IH]; intros fl s st k rc st' k' s' E; destruct fl as [|ch r]; cbn [vparse] in E; try discriminate; try (right; split; congruence).
  destruct (ch =? 10); [now apply IH in E|]. destruct (ch =? 91); [destruct (read_block r 0) as [x r1]; now apply IH in E|]. destruct ((ch =? 59) || (ch =? 35)); [now apply IH in E|]. destruct (isblank ch); [now apply IH in E|]. apply obind_ok in E. destruct E as ([kv r1] & Ep & E). destruct kv as [[var val]|]; [|left; congruence]. destruct s as [b|]; [|discriminate]. now apply IH in E.
Qed.
Lemma upd_case {B} (l : list B) i x j y : nth_error (upd l i x) j = Some y -> (i = j /\ y = x) \/ (i <> j /\ nth_error l j = Some y).
Proof.
  revert i j. induction l as [|z l IH]; intros [|i] [|j] E; cbn [upd nth_error] in E; try discriminate.
  - left. split; congruence. - right. split; [discriminate|exact E]. - right. split; [discriminate|exact E].
  - destruct (IH i j E) as [(-> & ->)|(N & E')]; [now left|right; split; [congruence|exact E']].
Qed.

Variable fuel : nat.
Lemma step_ok w v G L o r v' : inv w v G L -> Forall (fun x => fst x < length (vcfg v))%nat (vhand v) -> vstep isfloat fuel v o = Ok (r, v') -> (exists w' G' L', cstep isfloat fuel pick w o = Ok (r, w') /\ inv w' v' G' L') /\ Forall (fun x => fst x < length (vcfg v'))%nat (vhand v').
Proof.
  intros V Hb E.
  assert (Len : length (vcfg v) = length G) by (rewrite (i_val _ _ _ _ V); apply map_length).
  assert (HG : Forall (fun x => fst x < length G)%nat (vhand v)) by (rewrite <- Len; exact Hb).
  (* a configuration appended at the end has handed out nothing *)
  assert (App : forall g L2 (vh : list (nat * text)) ch, Forall (fun x => fst x < length G)%nat vh -> Forall2 (fun (it : nat * text) (p : nat) => forall o, nth_error G (fst it) = Some (Some o) -> In (p, CStr (snd it)) (call (Some o) ++ L)) vh ch -> incl L L2 -> Forall2 (fun (it : nat * text) (p : nat) => forall o, nth_error (G ++ [g]) (fst it) = Some (Some o) -> In (p, CStr (snd it)) (call (Some o) ++ L2)) vh ch).
  { intros g L2 vh ch F F2 Inc. induction F2 as [|it p vh ch Hp F2 IH]; [constructor|]. inversion F; subst. constructor; [|now apply IH]. intros o0 Eo. rewrite nth_error_app1 in Eo by assumption. specialize (Hp o0 Eo). apply in_app_or in Hp. apply in_or_app. destruct Hp as [Hp|Hp]; [now left|right; now apply Inc]. }
  assert (Bd : forall (vh : list (nat * text)) n k, Forall (fun x => fst x < n)%nat vh -> Forall (fun x => fst x < n + k)%nat vh) by (intros vh n k F; eapply Forall_impl; [|exact F]; intros; cbn beta in *; lia).
  destruct o as [name f|i b q a|i b q t|k|i]; cbn [vstep cstep] in *.
  - destruct V as [V1 V2 V3 V4 V5 V6]. unfold m_ini. destruct (heap_new pick fresh (cm w) (CCfg None None) _ V1) as (c & m1 & E1 & H1). rewrite E1. destruct (heap_new pick fresh m1 (CStr name) _ H1) as (fn & m2 & E2 & H2). rewrite E2.
    set (m3 := put m2 c (CCfg (Some fn) None)). assert (H3 : heap m3 (conf c (Some fn) [] ++ (fn, CStr name) :: ccells G ++ L)). { apply (heap_perm _ ((c, CCfg (Some fn) None) :: (fn, CStr name) :: ccells G ++ L)); [|unfold conf; cbn [hd_b cells_b app]; reflexivity]. apply (heap_put _ _ (CCfg None None)). apply (heap_perm _ _ _ H2). perm. } clearbody m3.
    destruct f as [f|].
    + apply obind_ok in E. destruct E as ([[[rc st] k] blk] & Ep & E). destruct (heap_new pick fresh m3 (CStr global) _ H3) as (bp & m4 & E4 & H4). rewrite E4.
      destruct (parse_ok (S (length f)) f m4 c (Some fn) [] ((fn, CStr name) :: ccells G ++ L) (Some bp) (Some global) [] 0%nat rc st k blk) as (m5 & A5 & L5 & blk' & E5 & H5 & Sh5 & Rf5 & Er5 & Lk5); [apply (heap_perm _ _ _ H4); cbn [named]; perm|exact Logic.I|intros x y p rb rv []|reflexivity|exact Ep|]. rewrite E5. cbn [obind]. destruct (rc <? 0) eqn:Erc.
      * match type of E with Ok (?u, ?z) = _ => assert (r = u) by congruence; assert (v' = z) by congruence; subst r v' end. split; [|cbn [vcfg vhand]; rewrite app_length; now apply Bd].
        assert (H6 : heap m5 ((fn, CStr name) :: (c, CCfg (Some fn) (hd_b A5)) :: cells_b A5 ++ named blk' blk ++ L5 ++ ccells G ++ L)) by (apply (heap_perm _ _ _ H5); unfold conf; perm). destruct (heap_free _ _ _ _ H6) as (m6 & E6 & H7). rewrite E6. cbn [obind]. destruct (heap_free _ _ _ _ H7) as (m7 & E7 & H8). rewrite E7. cbn [obind].
        exists (mkcw m7 (ccfg w ++ [None]) (chand w)), (G ++ [None]), (L5 ++ cells_b A5 ++ named blk' blk ++ L). split; [reflexivity|]. constructor; cbn [cm ccfg chand vcfg vhand vlost].
        -- apply (heap_perm _ _ _ H8). unfold ccells. rewrite flat_map_app. cbn [flat_map call]. perm.
        -- rewrite map_app, V2. reflexivity.
        -- rewrite map_app, V3. reflexivity.
        -- apply Forall_app. split; [exact V4|]. constructor; [exact Logic.I|constructor].
        -- rewrite !app_length, Lk5, V5, scells_ok, Er5. assert (X : length (named blk' blk) = match blk with Some _ => 1%nat | None => 0%nat end) by (destruct blk', blk; cbn in *; try contradiction; reflexivity). rewrite X. destruct blk; lia.
        -- apply App; [exact HG|exact V6|]. intros z J. apply in_or_app. right. apply in_or_app. right. apply in_or_app. now right.
      * match type of E with Ok (?u, ?z) = _ => assert (r = u) by congruence; assert (v' = z) by congruence; subst r v' end. split; [|cbn [vcfg vhand]; rewrite app_length; now apply Bd].
        exists (mkcw m5 (ccfg w ++ [Some c]) (chand w)), (G ++ [Some (c, fn, name, A5)]), (named blk' blk ++ L5 ++ L). split; [reflexivity|]. constructor; cbn [cm ccfg chand vcfg vhand vlost].
        -- apply (heap_perm _ _ _ H5). unfold ccells. rewrite flat_map_app. cbn [flat_map call]. perm.
        -- rewrite map_app, V2. reflexivity.
        -- rewrite map_app, V3. cbn [map cval_]. now rewrite Er5.
        -- apply Forall_app. split; [exact V4|]. constructor; [exact Rf5|constructor].
        -- destruct (vparse_end _ _ _ _ _ _ _ _ _ Ep) as [-> |(_ & ->)]; [discriminate|]. destruct blk'; cbn [named app]; rewrite app_length, Lk5, V5; lia.
        -- apply App; [exact HG|exact V6|]. intros z J. apply in_or_app. right. apply in_or_app. now right.
    + match type of E with Ok (?u, ?z) = _ => assert (r = u) by congruence; assert (v' = z) by congruence; subst r v' end. split; [|cbn [vcfg vhand]; rewrite app_length; now apply Bd].
      cbn [obind]. change (-1 <? 0) with true. cbv iota.
      assert (H4 : heap m3 ((fn, CStr name) :: (c, CCfg (Some fn) None) :: ccells G ++ L)) by (apply (heap_perm _ _ _ H3); unfold conf; cbn [hd_b cells_b]; perm). destruct (heap_free _ _ _ _ H4) as (m4 & E4 & H5). rewrite E4. cbn [obind]. destruct (heap_free _ _ _ _ H5) as (m5 & E5 & H6). rewrite E5. cbn [obind].
      exists (mkcw m5 (ccfg w ++ [None]) (chand w)), (G ++ [None]), L. split; [reflexivity|]. constructor; cbn [cm ccfg chand vcfg vhand vlost].
      -- apply (heap_perm _ _ _ H6). unfold ccells. rewrite flat_map_app. cbn [flat_map call]. perm.
      -- rewrite map_app, V2. reflexivity.
      -- rewrite map_app, V3. reflexivity.
      -- apply Forall_app. split; [exact V4|]. constructor; [exact Logic.I|constructor].
      -- exact V5.
      -- apply App; [exact HG|exact V6|]. intros z J. exact J.
  - apply obind_ok in E. destruct E as (st & Es & E). destruct (get_cfg _ _ _ _ _ _ V Es) as (c & fn & nm & A & Eg & Er & Ec & Rf). rewrite Ec. cbn [obind]. destruct V as [V1 V2 V3 V4 V5 V6]. destruct (set isfloat st b q a) as [rc st'] eqn:Eset. match type of E with Ok (?u, ?z) = _ => assert (r = u) by congruence; assert (v' = z) by congruence; subst r v' end.
    split; [|cbn [vcfg vhand]; rewrite upd_length; exact Hb]. destruct (split_at _ _ _ Eg) as (R & P1 & P2). rewrite <- Er in Eset.
    destruct (set_ok (cm w) c (Some fn) A ((fn, CStr nm) :: R ++ L) b q a rc st') as (m' & A' & L1 & E1 & H1 & Rf1 & Er1 & Ll1 & Str1); [apply (heap_perm _ _ _ V1); rewrite P1; cbn [call]; perm|exact Rf|exact Eset|]. rewrite E1. cbn [obind].
    exists (mkcw m' (ccfg w) (chand w)), (upd G i (Some (c, fn, nm, A'))), (L1 ++ L). split; [reflexivity|]. constructor; cbn [cm ccfg chand vcfg vhand vlost].
    + apply (heap_perm _ _ _ H1). rewrite P2. cbn [call]. perm.
    + rewrite map_upd, <- V2. cbn [caddr]. symmetry. apply upd_self. rewrite V2, nth_error_map, Eg. reflexivity.
    + rewrite map_upd, <- V3. cbn [cval_]. now rewrite Er1.
    + apply Forall_upd; [exact V4|exact Rf1].
    + rewrite app_length, Ll1, V5, Er. lia.
    + apply (hand_more G L); [|exact V6]. intros j o Ej. apply upd_case in Ej. destruct Ej as [(<- & Eo)|(Nj & Ej)].
      * assert (o = (c, fn, nm, A')) by congruence. subst o. exists (c, fn, nm, A). split; [exact Eg|]. intros p s J. cbn [call] in *. unfold conf in *. cbn [app] in *. destruct J as [J|J]; [discriminate|]. apply in_app_or in J. destruct J as [J|J].
        -- apply in_app_or in J. destruct J as [J|J].
           ++ apply Str1 in J. apply in_app_or in J. destruct J as [J|J]; [right; apply in_or_app; left; apply in_or_app; now left|right; apply in_or_app; right; apply in_or_app; now left].
           ++ right. apply in_or_app. left. apply in_or_app. now right.
        -- right. apply in_or_app. right. apply in_or_app. now right.
      * exists o. split; [exact Ej|]. intros p s J. apply in_app_or in J. apply in_or_app. destruct J as [J|J]; [now left|right; apply in_or_app; now right].
  - apply obind_ok in E. destruct E as (st & Es & E). destruct (get_cfg _ _ _ _ _ _ V Es) as (c & fn & nm & A & Eg & Er & Ec & Rf). rewrite Ec. cbn [obind]. apply obind_ok in E. destruct E as ([rc e] & Eget & E). rewrite <- Er in Eget. destruct (split_at _ _ _ Eg) as (R & P1 & P2). assert (Hc : heap (cm w) (conf c (Some fn) A ++ (fn, CStr nm) :: R ++ L)) by (apply (heap_perm _ _ _ (i_heap _ _ _ _ V)); rewrite P1; cbn [call]; perm).
    destruct (get_ok (cm w) c (Some fn) A _ fuel b q t rc e Hc Rf Eget) as (x & Ex & Kx). rewrite Ex. cbn [obind]. match type of E with Ok (?u, ?z) = _ => assert (r = u) by congruence; assert (v' = z) by congruence; subst r v' end. cbn [vcfg vhand].
    destruct e as [[z|z|z|s|rb rv]|]; try (subst x; split; [exists w, G, L; split; [reflexivity|]; destruct v; exact V|exact Hb]); [|contradiction].
    destruct Kx as (p & -> & J). unfold rd_str. rewrite (conf_sub _ _ _ _ _ Hc _ _ J). cbn [obind]. destruct V as [V1 V2 V3 V4 V5 V6]. split.
    + exists (mkcw (cm w) (ccfg w) (chand w ++ [p])), G, L. split; [reflexivity|]. constructor; cbn [cm ccfg chand vcfg vhand vlost]; try assumption. apply F2_app; [exact V6|]. constructor; [|constructor]. cbn [fst snd]. intros o Eo. assert (o = (c, fn, nm, A)) by congruence. subst o. cbn [call]. apply in_or_app. left. apply in_or_app. left. right. exact J.
    + apply Forall_app. split; [exact Hb|]. constructor; [|constructor]. cbn [fst]. rewrite Len. apply nth_error_Some. congruence.
  - destruct (nth_error (vhand v) k) as [[i s]|] eqn:Ek; [|discriminate]. apply obind_ok in E. destruct E as (st & Es & E). assert (r = RText s) by congruence. assert (v' = v) by congruence. subst r v'. split; [|exact Hb].
    destruct (get_cfg _ _ _ _ _ _ V Es) as (c & fn & nm & A & Eg & Er & Ec & Rf). destruct (F2_nth _ _ _ _ _ (i_hand _ _ _ _ V) Ek) as (p & Ep & Kp). cbn [fst snd] in Kp. specialize (Kp _ Eg). rewrite Ep. destruct (split_at _ _ _ Eg) as (R & P1 & P2).
    assert (Q : rd_str (cm w) p = Ok s). { unfold rd_str. assert (X : sub (call (Some (c, fn, nm, A)) ++ L) (cm w)). { apply (heap_sub _ _ _ (i_heap _ _ _ _ V)). intros z J. apply in_app_or in J. apply in_or_app. destruct J as [J|J]; [left|now right]. apply (Permutation_in _ (Permutation_sym P1)). apply in_or_app. now left. } now rewrite (X _ _ Kp). }
    rewrite Q. cbn [obind]. exists w, G, L. split; [reflexivity|exact V].
  - apply obind_ok in E. destruct E as (st & Es & E). match type of E with Ok (?u, ?z) = _ => assert (r = u) by congruence; assert (v' = z) by congruence; subst r v' end. destruct (get_cfg _ _ _ _ _ _ V Es) as (c & fn & nm & A & Eg & Er & Ec & Rf). rewrite Ec. cbn [obind]. destruct V as [V1 V2 V3 V4 V5 V6]. destruct (split_at _ _ _ Eg) as (R & P1 & P2).
    destruct (close_ok (cm w) c fn nm A (R ++ L)) as (m' & E1 & H1); [apply (heap_perm _ _ _ V1); rewrite P1; cbn [call]; perm|]. rewrite E1. cbn [obind]. split; [|cbn [vcfg vhand]; rewrite upd_length; exact Hb].
    exists (mkcw m' (upd (ccfg w) i None) (chand w)), (upd G i None), L. split; [reflexivity|]. constructor; cbn [cm ccfg chand vcfg vhand vlost].
    + apply (heap_perm _ _ _ H1). rewrite (P2 None). cbn [call]. perm.
    + rewrite map_upd, V2. reflexivity.
    + rewrite map_upd, V3. reflexivity.
    + apply Forall_upd; [exact V4|exact Logic.I].
    + exact V5.
    + apply (hand_more G L); [|exact V6]. intros j o Ej. apply upd_case in Ej. destruct Ej as [(<- & Eo)|(Nj & Ej)]; [discriminate|]. exists o. split; [exact Ej|]. auto.
Qed.
Lemma run_ok : forall os w v G L rs v', inv w v G L -> Forall (fun x => fst x < length (vcfg v))%nat (vhand v) -> vrun isfloat fuel v os = Ok (rs, v') -> exists w' G' L', crun isfloat fuel pick w os = Ok (rs, w') /\ inv w' v' G' L'.
Proof.
  induction os as [|o os IH]; intros w v G L rs v' V Hb E; cbn [vrun crun] in *.
  - assert (rs = [] /\ v' = v) as (-> & ->) by (split; congruence). eauto.
  - apply obind_ok in E. destruct E as ([r v1] & E1 & E). apply obind_ok in E. destruct E as ([l v2] & E2 & E). assert (rs = r :: l /\ v' = v2) as (-> & ->) by (split; congruence).
    destruct (step_ok _ _ _ _ _ _ _ V Hb E1) as ((w1 & G1 & L1 & S1 & V1) & Hb1). rewrite S1. cbn [obind]. destruct (IH _ _ _ _ _ _ V1 Hb1 E2) as (w2 & G2 & L2 & S2 & V2). rewrite S2. cbn [obind]. eauto.
Qed.
Lemma inv0 : inv cw0 vw0 [] [].
Proof. constructor; try reflexivity; try constructor; constructor. Qed.
End S.
