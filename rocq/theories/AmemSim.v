(** Every step of a program in memory follows the step on values. *)
From Verif Require Import Prelude Blocks ArrayModel AmemModel AmemSpec AmemProofs.
From Coq Require Import Permutation.
Open Scope Z_scope.

Section Focus.
Context {B : Type}.
Definition one (o : option B) : list B := match o with Some x => [x] | None => [] end.
Definition cats (L : list (option B)) : list B := flat_map one L.
Lemma cats_app L M : cats (L ++ M) = cats L ++ cats M.
Proof. unfold cats. apply flat_map_app. Qed.
Lemma focus : forall L i x, nth_error L i = Some (Some x) -> exists C, Permutation (cats L) (x :: C) /\ (forall y, Permutation (cats (upd L i (Some y))) (y :: C)) /\ Permutation (cats (upd L i None)) C.
Proof.
  induction L as [|o L IH]; intros [|i] x E; cbn [nth_error] in E; try discriminate.
  - assert (o = Some x) by congruence. subst. exists (cats L). cbn [upd cats flat_map one app]. fold (cats L). split; [reflexivity|]. split; [intros y; reflexivity|reflexivity].
  - destruct (IH i x E) as (C & H1 & H2 & H3). exists (one o ++ C). cbn [upd cats flat_map]. fold (cats L). split; [|split; [intros y; fold (cats (upd L i (Some y)))|fold (cats (upd L i None))]].
    + rewrite H1. symmetry. apply Permutation_middle.
    + rewrite H2. symmetry. apply Permutation_middle.
    + now rewrite H3.
Qed.
End Focus.

(** a stream: its address, the stream, the address of its array and of the array's data *)
Definition sitem : Type := nat * bstream * nat * option nat.
Definition s_item (s : sitem) : item := let '(_, b, x, p) := s in (x, bdata b, p).
Definition s_strm (s : sitem) : nat * strm := let '(a, b, x, _) := s in (a, mkst (flip b) (offt b) x).
Definition addr_a (i : item) : nat := let '(x, _, _) := i in x.
Definition val_a (i : item) : arr := let '(_, v, _) := i in v.
Definition addr_s (i : sitem) : nat := let '(a, _, _, _) := i in a.
Definition val_s (i : sitem) : bstream := let '(_, b, _, _) := i in b.
(** the variable numbered i of the program holds the address of item i *)
Definition tracks {B} (addr : B -> nat) (P : list nat) (L : list (option B)) : Prop := length P = length L /\ forall i x, nth_error L i = Some (Some x) -> nth_error P i = Some (addr x).
Definition rel (q : pstate) (v : vstate) : Prop :=
  exists IA IS F, rep (pm q) (cats IA ++ map s_item (cats IS)) (map s_strm (cats IS)) F /\ length F = dropped v /\ vA v = map (option_map val_a) IA /\ vS v = map (option_map val_s) IS /\ tracks addr_a (pA q) IA /\ tracks addr_s (pS q) IS.

Lemma tracks_upd {B} (addr : B -> nat) P L i o : tracks addr P L -> (forall x, o = Some x -> nth_error P i = Some (addr x)) -> tracks addr P (upd L i o).
Proof.
  intros [H1 H2] H. split; [now rewrite upd_length|]. intros k x E. rewrite upd_nth_error in E. destruct (Nat.eqb_spec k i) as [->|]; [|now apply H2]. destruct (i <? length L)%nat; [apply H; congruence|discriminate].
Qed.
Lemma tracks_add {B} (addr : B -> nat) P L x : tracks addr P L -> tracks addr (P ++ [addr x]) (L ++ [Some x]).
Proof.
  intros [H1 H2]. split; [rewrite !app_length; cbn [length]; lia|]. intros k y E. destruct (Nat.lt_ge_cases k (length L)) as [Hk|Hk].
  - rewrite nth_error_app1 in E by exact Hk. rewrite nth_error_app1 by lia. now apply H2.
  - rewrite nth_error_app2 in E by exact Hk. rewrite nth_error_app2 by lia. rewrite H1. destruct (k - length L)%nat as [|[|j]]; cbn [nth_error] in *; congruence.
Qed.
Lemma map_upd {X Y} (f : X -> Y) : forall l i x, map f (upd l i x) = upd (map f l) i (f x).
Proof. induction l as [|y l IH]; intros [|i] x; cbn [upd map]; [reflexivity..|]. now rewrite IH. Qed.
Lemma live_map {X Y} (f : X -> Y) L i y : live (map (option_map f) L) i = Ok y -> exists x, nth_error L i = Some (Some x) /\ f x = y.
Proof. unfold live. rewrite nth_error_map. destruct (nth_error L i) as [[x|]|]; cbn [option_map]; intros E; try discriminate. exists x. split; [reflexivity|congruence]. Qed.

Lemma on_array q v i a : rel q v -> live (vA v) i = Ok a ->
  exists x p O T F, nth_error (pA q) i = Some x /\ rep (pm q) ((x, a, p) :: O) T F /\ length F = dropped v
    /\ (forall m' a' p' F', rep m' ((x, a', p') :: O) T F' -> rel (mkps m' (pA q) (pS q)) (mkvs (upd (vA v) i (Some a')) (vS v) (length F')))
    /\ (forall m' F', rep m' O T F' -> rel (mkps m' (pA q) (pS q)) (mkvs (upd (vA v) i None) (vS v) (length F'))).
Proof.
  intros (IA & IS & F & R & EF & EA & ES & TA & TS) L. rewrite EA in L. apply live_map in L. destruct L as ([[x a0] p] & En & Ea). cbn [val_a] in Ea. subst a0. destruct (focus _ _ _ En) as (C & P1 & P2 & P3).
  exists x, p, (C ++ map s_item (cats IS)), (map s_strm (cats IS)), F. split; [apply TA in En; exact En|]. split; [|split; [exact EF|split]].
  - apply (rep_perm _ _ _ _ _ _ _ R); [|reflexivity|reflexivity]. change ((x, a, p) :: C ++ map s_item (cats IS)) with (((x, a, p) :: C) ++ map s_item (cats IS)). now apply Permutation_app_tail.
  - intros m' a' p' F' R'. exists (upd IA i (Some (x, a', p'))), IS, F'. cbn [pm pA pS vA vS dropped]. split; [|split; [reflexivity|split; [rewrite map_upd, EA; reflexivity|split; [exact ES|split; [|exact TS]]]]].
    + apply (rep_perm _ _ _ _ _ _ _ R'); [|reflexivity|reflexivity]. change ((x, a', p') :: C ++ map s_item (cats IS)) with (((x, a', p') :: C) ++ map s_item (cats IS)). apply Permutation_app_tail. symmetry. apply P2.
    + apply tracks_upd; [exact TA|]. intros y Ey. assert (y = (x, a', p')) by congruence. subst y. cbn [addr_a]. apply TA in En. exact En.
  - intros m' F' R'. exists (upd IA i None), IS, F'. cbn [pm pA pS vA vS dropped]. split; [|split; [reflexivity|split; [rewrite map_upd, EA; reflexivity|split; [exact ES|split; [|exact TS]]]]].
    + apply (rep_perm _ _ _ _ _ _ _ R'); [|reflexivity|reflexivity]. apply Permutation_app_tail. symmetry. apply P3.
    + apply tracks_upd; [exact TA|]. discriminate.
Qed.
Lemma on_stream q v j b : rel q v -> live (vS v) j = Ok b ->
  exists s x p O T F, nth_error (pS q) j = Some s /\ rep (pm q) ((x, bdata b, p) :: O) ((s, mkst (flip b) (offt b) x) :: T) F /\ length F = dropped v
    /\ (forall m' b' x' p' F', rep m' ((x', bdata b', p') :: O) ((s, mkst (flip b') (offt b') x') :: T) F' -> rel (mkps m' (pA q) (pS q)) (mkvs (vA v) (upd (vS v) j (Some b')) (length F')))
    /\ (forall m' F', rep m' O T F' -> rel (mkps m' (pA q) (pS q)) (mkvs (vA v) (upd (vS v) j None) (length F'))).
Proof.
  intros (IA & IS & F & R & EF & EA & ES & TA & TS) L. rewrite ES in L. apply live_map in L. destruct L as ([[[s b0] x] p] & En & Eb). cbn [val_s] in Eb. subst b0. destruct (focus _ _ _ En) as (C & P1 & P2 & P3).
  exists s, x, p, (cats IA ++ map s_item C), (map s_strm C), F. split; [apply TS in En; exact En|]. split; [|split; [exact EF|split]].
  - apply (rep_perm _ _ _ _ _ _ _ R); [|apply (Permutation_map s_strm) in P1; exact P1|reflexivity]. apply (Permutation_map s_item) in P1. rewrite P1. cbn [map s_item]. symmetry. apply Permutation_middle.
  - intros m' b' x' p' F' R'. exists IA, (upd IS j (Some (s, b', x', p'))), F'. cbn [pm pA pS vA vS dropped]. split; [|split; [reflexivity|split; [exact EA|split; [rewrite map_upd, ES; reflexivity|split; [exact TA|]]]]].
    + specialize (P2 (s, b', x', p')). apply (rep_perm _ _ _ _ _ _ _ R'); [|apply (Permutation_map s_strm) in P2; symmetry; exact P2|reflexivity]. apply (Permutation_map s_item) in P2. rewrite P2. cbn [map s_item]. apply Permutation_middle.
    + apply tracks_upd; [exact TS|]. intros y Ey. assert (y = (s, b', x', p')) by congruence. subst y. cbn [addr_s]. apply TS in En. exact En.
  - intros m' F' R'. exists IA, (upd IS j None), F'. cbn [pm pA pS vA vS dropped]. split; [|split; [reflexivity|split; [exact EA|split; [rewrite map_upd, ES; reflexivity|split; [exact TA|]]]]].
    + apply (rep_perm _ _ _ _ _ _ _ R'); [|apply (Permutation_map s_strm) in P3; symmetry; exact P3|reflexivity]. apply (Permutation_map s_item) in P3. now rewrite P3.
    + apply tracks_upd; [exact TS|]. discriminate.
Qed.
Lemma on_new q v : rel q v -> exists O T F, rep (pm q) O T F /\ length F = dropped v
    /\ (forall m' x a p, rep m' ((x, a, p) :: O) T F -> rel (mkps m' (pA q ++ [x]) (pS q)) (mkvs (vA v ++ [Some a]) (vS v) (dropped v)))
    /\ (forall m' s x b p, rep m' ((x, bdata b, p) :: O) ((s, mkst (flip b) (offt b) x) :: T) F -> rel (mkps m' (pA q) (pS q ++ [s])) (mkvs (vA v) (vS v ++ [Some b]) (dropped v))).
Proof.
  intros (IA & IS & F & R & EF & EA & ES & TA & TS). exists (cats IA ++ map s_item (cats IS)), (map s_strm (cats IS)), F. split; [exact R|]. split; [exact EF|]. split.
  - intros m' x a p R'. exists (IA ++ [Some (x, a, p)]), IS, F. cbn [pm pA pS vA vS dropped]. split; [|split; [exact EF|split; [rewrite map_app, EA; reflexivity|split; [exact ES|split; [apply (tracks_add addr_a _ _ (x, a, p)), TA|exact TS]]]]].
    apply (rep_perm _ _ _ _ _ _ _ R'); [|reflexivity|reflexivity]. rewrite cats_app. cbn [cats flat_map one app]. rewrite <- app_assoc. cbn [app]. apply Permutation_middle.
  - intros m' s x b p R'. exists IA, (IS ++ [Some (s, b, x, p)]), F. cbn [pm pA pS vA vS dropped]. split; [|split; [exact EF|split; [exact EA|split; [rewrite map_app, ES; reflexivity|split; [exact TA|apply (tracks_add addr_s _ _ (s, b, x, p)), TS]]]]].
    apply (rep_perm _ _ _ _ _ _ _ R'); rewrite ?cats_app, ?map_app; cbn [cats flat_map one app map s_item s_strm]; [|apply Permutation_cons_append|reflexivity]. rewrite app_assoc. apply Permutation_cons_append.
Qed.
Lemma on_both q v i j a b : rel q v -> live (vA v) i = Ok a -> live (vS v) j = Ok b ->
  exists y w s x p O T F, nth_error (pA q) i = Some y /\ nth_error (pS q) j = Some s /\ rep (pm q) ((x, bdata b, p) :: (y, a, w) :: O) ((s, mkst (flip b) (offt b) x) :: T) F /\ length F = dropped v
    /\ (forall m' b', bdata b' = a -> rep m' ((y, a, w) :: O) ((s, mkst (flip b') (offt b') y) :: T) F -> rel (mkps m' (pA q) (pS q)) (mkvs (upd (vA v) i None) (upd (vS v) j (Some b')) (dropped v))).
Proof.
  intros (IA & IS & F & R & EF & EA & ES & TA & TS) L1 L2. rewrite EA in L1. rewrite ES in L2. apply live_map in L1, L2. destruct L1 as ([[y a0] w] & En1 & Ea). destruct L2 as ([[[s b0] x] p] & En2 & Eb). cbn [val_s val_a] in Ea, Eb. subst a0 b0. destruct (focus _ _ _ En1) as (C & P1 & P2 & P3). destruct (focus _ _ _ En2) as (D & Q1 & Q2 & Q3).
  exists y, w, s, x, p, (C ++ map s_item D), (map s_strm D), F. split; [apply TA in En1; exact En1|]. split; [apply TS in En2; exact En2|]. split; [|split; [exact EF|]].
  - apply (rep_perm _ _ _ _ _ _ _ R); [|apply (Permutation_map s_strm) in Q1; exact Q1|reflexivity]. apply (Permutation_map s_item) in Q1. rewrite Q1, P1. cbn [map s_item app]. rewrite perm_swap. constructor. symmetry. apply Permutation_middle.
  - intros m' b' E' R'. exists (upd IA i None), (upd IS j (Some (s, b', y, w))), F. cbn [pm pA pS vA vS dropped]. split; [|split; [exact EF|split; [rewrite map_upd, EA; reflexivity|split; [rewrite map_upd, ES; reflexivity|split]]]].
    + specialize (Q2 (s, b', y, w)). apply (rep_perm _ _ _ _ _ _ _ R'); [|apply (Permutation_map s_strm) in Q2; symmetry; exact Q2|reflexivity]. apply (Permutation_map s_item) in Q2. rewrite Q2, P3. cbn [map s_item]. rewrite E'. apply Permutation_middle.
    + apply tracks_upd; [exact TA|]. discriminate.
    + apply tracks_upd; [exact TS|]. intros z Ez. assert (z = (s, b', y, w)) by congruence. subst z. cbn [addr_s]. apply TS in En2. exact En2.
Qed.

Section Step.
Variable pick : nat -> list nat -> nat.
Hypothesis fresh : forall c l, ~ In (pick c l) l.
Lemma dblk_count m x a p O T F : rep m ((x, a, p) :: O) T F -> length (dblk p (adata a)) = has_data a.
Proof. intros R. apply rep_ok in R. cbn [iok] in R. unfold dblk, has_data. destruct p, (adata a); try contradiction; reflexivity. Qed.
Lemma new_hdr_rep m O T F : rep m O T F -> exists m' x, new_hdr pick m (mkah 0 0 None) = (m', x) /\ rep m' ((x, mkarr 0 0 None, None) :: O) T F.
Proof.
  intros (R1 & R2 & R3 & R4 & R5). pose proof (new_hdr_ok pick fresh m (mkah 0 0 None) R4) as N. unfold new_hdr in *. cbn [fst] in N. eexists _, _. split; [reflexivity|]. split; [cbn [hdr map ihdr alen asize]; now constructor|]. split; [exact R2|]. split; [exact R3|]. split; [exact N|]. constructor; [exact Logic.I|exact R5].
Qed.
Lemma m_with_ok m O T F data len size a : rep m O T F -> array_with data len size true = Ok a -> exists m' x p, m_with pick m data len size = Ok (m', x) /\ rep m' ((x, a, p) :: O) T F.
Proof.
  intros R E. unfold m_with. destruct (new_hdr_rep _ _ _ _ R) as (m1 & x & En & R1). rewrite En. destruct (m_set_data_ok pick fresh _ _ _ _ _ _ _ data len size a R1 E) as (m2 & p & E2 & R2). rewrite E2. cbn [obind]. exists m2, x, p. split; [reflexivity|exact R2].
Qed.
Lemma ok_inj {X} (a b : X) : Ok a = Ok b -> a = b.
Proof. congruence. Qed.
Ltac inv_ok E := apply ok_inj in E; let E1 := fresh "E1" in let E2 := fresh "E2" in pose proof (f_equal fst E) as E1; pose proof (f_equal snd E) as E2; cbn [fst snd] in E1, E2; subst; clear E.
Ltac same := match goal with H : rel ?q ?v |- rel ?q' ?v' => replace v' with v; [exact H|] end.

Lemma step_ok q v o r v' : rel q v -> vstep v o = Ok (r, v') -> exists q', pstep pick q o = Ok (r, q') /\ rel q' v'.
Proof.
  intros R E. destruct o; cbn [vstep] in E; unfold pstep; cbv zeta; cbn [obind].
  - apply obind_ok in E. destruct E as (a & E1 & E). inv_ok E. destruct (on_new _ _ R) as (O & T & F & R1 & EF & K1 & K2). unfold m_new. rewrite E1. cbn [obind]. destruct (place_ok pick fresh _ a _ _ _ R1) as (m' & x & p & Ep & R2). rewrite Ep. cbn [obind]. eexists. split; [reflexivity|]. apply (K1 _ _ _ _ R2).
  - apply obind_ok in E. destruct E as (a & E1 & E). inv_ok E. destruct (on_new _ _ R) as (O & T & F & R1 & EF & K1 & K2). destruct (m_with_ok _ _ _ _ (Some data) len size a R1 E1) as (m' & x & p & Ep & R2). rewrite Ep. cbn [obind]. eexists. split; [reflexivity|]. apply (K1 _ _ _ _ R2).
  - apply obind_ok in E. destruct E as (a & L & E). apply obind_ok in E. destruct E as (c & E1 & E). inv_ok E. destruct (on_array _ _ _ _ R L) as (x & p & O & T & F & En & R1 & _). rewrite En. cbn [here obind]. unfold m_copy. rewrite (load_ok _ _ _ _ _ _ _ R1). cbn [obind]. rewrite E1. cbn [obind]. destruct (on_new _ _ R) as (O' & T' & F' & R1' & EF & K1 & K2). destruct (place_ok pick fresh _ c _ _ _ R1') as (m' & y & p' & Ep & R2). rewrite Ep. cbn [obind]. eexists. split; [reflexivity|]. apply (K1 _ _ _ _ R2).
  - apply obind_ok in E. destruct E as (a & L & E). inv_ok E. destruct (on_array _ _ _ _ R L) as (x & p & O & T & F & En & R1 & EF & K1 & K2). rewrite En. cbn [here obind]. destruct (m_free_ok _ _ _ _ _ _ _ R1) as (m' & Em & R2). rewrite Em. cbn [obind]. eexists. split; [reflexivity|]. unfold vputA. replace (dropped v + 0)%nat with (length F) by lia. apply (K2 _ _ R2).
  - apply obind_ok in E. destruct E as (a & L & E). apply obind_ok in E. destruct E as (c & E1 & E). inv_ok E. destruct (on_array _ _ _ _ R L) as (x & p & O & T & F & En & R1 & EF & K1 & K2). rewrite En. cbn [here obind]. destruct (m_set_data_ok pick fresh _ _ _ _ _ _ _ (Some data) len size c R1 E1) as (m' & p' & Em & R2). rewrite Em. cbn [obind]. eexists. split; [reflexivity|]. unfold vputA. replace (dropped v + has_data a)%nat with (length (dblk p (adata a) ++ F)) by (rewrite app_length, (dblk_count _ _ _ _ _ _ _ R1); lia). apply (K1 _ _ _ _ R2).
  - apply obind_ok in E. destruct E as (a & L & E). apply obind_ok in E. destruct E as (c & E1 & E). inv_ok E. destruct (on_array _ _ _ _ R L) as (x & p & O & T & F & En & R1 & EF & K1 & K2). rewrite En. cbn [here obind]. destruct (m_resize_ok pick fresh _ _ _ _ _ _ _ len c R1 E1) as (m' & p' & Em & R2). rewrite Em. cbn [obind]. eexists. split; [reflexivity|]. unfold vputA. replace (dropped v + (if (alen a =? 0)%Z then has_data a else 0))%nat with (length ((if alen a =? 0 then dblk p (adata a) else []) ++ F)) by (rewrite app_length; destruct (alen a =? 0); cbn [length]; rewrite ?(dblk_count _ _ _ _ _ _ _ R1); lia). apply (K1 _ _ _ _ R2).
  - apply obind_ok in E. destruct E as (a & L & E). unfold array_set_length in E. inv_ok E. destruct (on_array _ _ _ _ R L) as (x & p & O & T & F & En & R1 & EF & K1 & K2). rewrite En. cbn [here obind]. destruct (m_set_length_ok _ _ _ _ _ _ _ len R1) as (m' & Em & R2). rewrite Em. cbn [obind]. eexists. split; [reflexivity|]. unfold vputA. replace (dropped v + 0)%nat with (length F) by lia. apply (K1 _ _ _ _ R2).
  - apply obind_ok in E. destruct E as (a & L & E). apply obind_ok in E. destruct E as (c & E1 & E). inv_ok E. destruct (on_array _ _ _ _ R L) as (x & p & O & T & F & En & R1 & EF & K1 & K2). rewrite En. cbn [here obind]. unfold m_get. rewrite (load_ok _ _ _ _ _ _ _ R1). cbn [obind]. rewrite E1. cbn [obind]. exists q. split; [reflexivity|exact R].
  - apply obind_ok in E. destruct E as (a & L & E). apply obind_ok in E. destruct E as (c & E1 & E). inv_ok E. destruct (on_array _ _ _ _ R L) as (x & p & O & T & F & En & R1 & EF & K1 & K2). rewrite En. cbn [here obind]. unfold m_put. rewrite (load_ok _ _ _ _ _ _ _ R1). cbn [obind]. rewrite E1. cbn [obind]. destruct (put_shape _ _ _ _ E1) as (S1 & S2 & S3). destruct (store_ok _ _ _ _ _ _ _ c R1 S1 S2 S3) as (m' & Em & R2). rewrite Em. cbn [obind]. eexists. split; [reflexivity|]. unfold vputA. replace (dropped v + 0)%nat with (length F) by lia. apply (K1 _ _ _ _ R2).
  - apply obind_ok in E. destruct E as (b & E1 & E). inv_ok E. destruct (on_new _ _ R) as (O & T & F & R1 & EF & K1 & K2). unfold bs_new in E1. apply obind_ok in E1. destruct E1 as (a & Ea & Eb). assert (b = mkbs false 0 a) by congruence. subst b. unfold s_new. destruct (new_str_ok pick fresh _ (mkst false 0 0) _ _ _ R1) as (m1 & s & En & R2). rewrite En. unfold m_new. rewrite Ea. cbn [obind]. destruct (place_ok pick fresh _ a _ _ _ R2) as (m2 & x & p & Ep & R3). rewrite Ep. cbn [obind]. eexists. split; [reflexivity|]. apply (K2 _ _ x (mkbs false 0 a) p). apply (rep_set_str _ _ _ _ _ _ _ R3).
  - apply obind_ok in E. destruct E as (b & L & E). apply obind_ok in E. destruct E as (c & E1 & E). inv_ok E. destruct (on_stream _ _ _ _ R L) as (s & x & p & O & T & F & En & R1 & _). rewrite En. cbn [here obind]. unfold s_clone. rewrite (str_at _ _ _ _ _ _ R1). cbn [here obind sarr soff]. pose proof (hdr_at _ _ _ _ _ _ _ R1) as Hh. pose proof (load_ok _ _ _ _ _ _ _ R1) as Hl. destruct (on_new _ _ R) as (O' & T' & F' & R1' & EF & K1 & K2).
    destruct (new_str_ok pick fresh _ (mkst false 0 0) _ _ _ R1') as (m1 & t & En1 & R2). assert (hdr m1 = hdr (pm q) /\ blk m1 = blk (pm q)) as (H1 & H2) by (unfold new_str in En1; apply (f_equal fst) in En1; cbn [fst] in En1; subst m1; split; reflexivity). rewrite En1. rewrite H1, Hh. cbn [here obind hlen]. unfold m_copy. replace (load m1 x) with (load (pm q) x) by (unfold load; now rewrite H1, H2). rewrite Hl. cbn [obind].
    unfold bs_clone in E1. apply obind_ok in E1. destruct E1 as (a & Ea & Eb). assert (c = mkbs false (offt b) a) by congruence. subst c. unfold array_length in Ea. rewrite Ea. cbn [obind]. destruct (place_ok pick fresh _ a _ _ _ R2) as (m2 & y & p' & Ep & R3). rewrite Ep. cbn [obind]. eexists. split; [reflexivity|]. apply (K2 _ _ y (mkbs false (offt b) a) p'). apply (rep_set_str _ _ _ _ _ _ _ R3).
  - apply obind_ok in E. destruct E as (b & L & E). inv_ok E. destruct (on_stream _ _ _ _ R L) as (s & x & p & O & T & F & En & R1 & EF & K1 & K2). rewrite En. cbn [here obind]. destruct (s_free_ok _ s (mkst (flip b) (offt b) x) (bdata b) p _ _ _ R1) as (m' & Em & R2). rewrite Em. cbn [obind]. eexists. split; [reflexivity|]. unfold vputS. replace (dropped v + 0)%nat with (length F) by lia. apply (K2 _ _ R2).
  - apply obind_ok in E. destruct E as (b & L & E). unfold bs_truncate, array_set_length in E. inv_ok E. destruct (on_stream _ _ _ _ R L) as (s & x & p & O & T & F & En & R1 & EF & K1 & K2). rewrite En. cbn [here obind]. unfold s_truncate. rewrite (str_at _ _ _ _ _ _ R1). cbn [here obind sarr]. destruct (m_set_length_ok _ _ _ _ _ _ _ 0 R1) as (m' & Em & R2). rewrite Em. cbn [obind]. eexists. split; [reflexivity|]. unfold vputS. replace (dropped v + 0)%nat with (length F) by lia. apply (K1 _ (mkbs (flip b) (offt b) (mkarr 0 (asize (bdata b)) (adata (bdata b)))) x p _ R2).
  - apply obind_ok in E. destruct E as (b & L & E). unfold bs_rewind in E. inv_ok E. destruct (on_stream _ _ _ _ R L) as (s & x & p & O & T & F & En & R1 & EF & K1 & K2). rewrite En. cbn [here obind]. unfold s_rewind. rewrite (str_at _ _ _ _ _ _ R1). cbn [here obind sarr soff sflip]. eexists. split; [reflexivity|]. unfold vputS. replace (dropped v + 0)%nat with (length F) by lia. apply (K1 _ (mkbs (flip b) 0 (bdata b)) x p). apply (rep_set_str _ _ _ _ _ _ _ R1).
  - apply obind_ok in E. destruct E as (b & L & E). inv_ok E. destruct (on_stream _ _ _ _ R L) as (s & x & p & O & T & F & En & R1 & EF & K1 & K2). rewrite En. cbn [here obind]. unfold s_flip. rewrite (str_at _ _ _ _ _ _ R1). cbn [here obind sarr soff sflip]. eexists. split; [reflexivity|]. unfold vputS. replace (dropped v + 0)%nat with (length F) by lia. apply (K1 _ (mkbs f (offt b) (bdata b)) x p). apply (rep_set_str _ _ _ _ _ _ _ R1).
  - apply obind_ok in E. destruct E as (b & L & E). apply obind_ok in E. destruct E as (c & E1 & E). inv_ok E. unfold bs_set_data in E1. apply obind_ok in E1. destruct E1 as (a & Ea & Eb). assert (c = mkbs (flip b) (offt b) a) by congruence. subst c. destruct (on_stream _ _ _ _ R L) as (s & x & p & O & T & F & En & R1 & EF & K1 & K2). rewrite En. cbn [here obind]. unfold s_set_data. rewrite (str_at _ _ _ _ _ _ R1). cbn [here obind sarr]. destruct (m_set_data_ok pick fresh _ _ _ _ _ _ _ (Some data) len 1 a R1 Ea) as (m' & p' & Em & R2). rewrite Em. cbn [obind]. eexists. split; [reflexivity|]. unfold vputS. replace (dropped v + has_data (bdata b))%nat with (length (dblk p (adata (bdata b)) ++ F)) by (rewrite app_length, (dblk_count _ _ _ _ _ _ _ R1); lia). apply (K1 _ (mkbs (flip b) (offt b) a) x p' _ R2).
  - apply obind_ok in E. destruct E as (b & L & E). apply obind_ok in E. destruct E as (a & L2 & E). inv_ok E. destruct (on_both _ _ _ _ _ _ R L2 L) as (y & w & s & x & p & O & T & F & En1 & En2 & R1 & EF & K). rewrite En2. cbn [here obind]. rewrite En1. cbn [here obind]. unfold s_set_array. rewrite (str_at _ _ _ _ _ _ R1). cbn [here obind sarr sflip]. destruct (m_free_ok _ _ _ _ _ _ _ R1) as (m' & Em & R2). rewrite Em. cbn [obind]. eexists. split; [reflexivity|]. unfold vputS, vputA. cbn [vA vS dropped]. replace (dropped v + 0 + 0)%nat with (dropped v) by lia. apply (K _ (bs_set_array b a o)); [reflexivity|]. apply (rep_set_str _ _ _ _ _ _ _ R2).
  - apply obind_ok in E. destruct E as (b & L & E). apply obind_ok in E. destruct E as ([d c] & E1 & E). unfold bs_read in E1. apply obind_ok in E1. destruct E1 as ([d' o'] & Ea & Eb). assert (d = d' /\ c = mkbs (flip b) o' (bdata b)) as (-> & ->) by (split; congruence). inv_ok E. destruct (on_stream _ _ _ _ R L) as (s & x & p & O & T & F & En & R1 & EF & K1 & K2). rewrite En. cbn [here obind]. unfold s_read. rewrite (str_at _ _ _ _ _ _ R1). cbn [here obind sarr soff sflip]. rewrite (load_ok _ _ _ _ _ _ _ R1). cbn [obind]. rewrite Ea. cbn [obind]. eexists. split; [reflexivity|]. unfold vputS. replace (dropped v + 0)%nat with (length F) by lia. apply (K1 _ (mkbs (flip b) o' (bdata b)) x p). apply (rep_set_str _ _ _ _ _ _ _ R1).
  - apply obind_ok in E. destruct E as (b & L & E). apply obind_ok in E. destruct E as (c & E1 & E). inv_ok E. unfold bs_write in E1. cbv zeta in E1. unfold array_length in E1. apply obind_ok in E1. destruct E1 as (a & Ea & Eb). apply obind_ok in Eb. destruct Eb as ([o' a'] & Ep & Eb). assert (c = mkbs (flip b) o' a') by congruence. subst c. destruct (on_stream _ _ _ _ R L) as (s & x & p & O & T & F & En & R1 & EF & K1 & K2). rewrite En. cbn [here obind]. unfold s_write. rewrite (str_at _ _ _ _ _ _ R1). cbn [here obind sarr soff sflip]. rewrite (hdr_at _ _ _ _ _ _ _ R1). cbn [here obind hlen].
    assert (X : exists m1 p1 F1, (if Z.of_nat (length d) >? (alen (bdata b) - offt b) mod W64 then m_resize pick (pm q) x (((alen (bdata b) + Z.of_nat (length d)) mod W64 * 2) mod W64) else Ok (pm q)) = Ok m1 /\ rep m1 ((x, a, p1) :: O) ((s, mkst (flip b) (offt b) x) :: T) F1 /\ length F1 = (dropped v + (if grows b d && (alen (bdata b) =? 0)%Z then has_data (bdata b) else 0))%nat).
    { unfold grows. destruct (Z.of_nat (length d) >? (alen (bdata b) - offt b) mod W64).
      - destruct (m_resize_ok pick fresh _ _ _ _ _ _ _ _ a R1 Ea) as (m1 & p1 & Em & R2). eexists m1, p1, _. split; [exact Em|]. split; [exact R2|]. cbn [andb]. rewrite app_length. destruct (alen (bdata b) =? 0); cbn [length]; rewrite ?(dblk_count _ _ _ _ _ _ _ R1); lia.
      - exists (pm q), p, F. split; [reflexivity|]. assert (a = bdata b) by congruence. subst a. split; [exact R1|]. cbn [andb]. lia. }
    destruct X as (m1 & p1 & F1 & Em & R2 & EF1). rewrite Em. cbn [obind]. rewrite (load_ok _ _ _ _ _ _ _ R2). cbn [obind]. rewrite Ep. cbn [obind]. unfold array_put_all in Ep. destruct (puts_shape _ _ _ _ _ Ep) as (S1 & S2 & S3). destruct (store_ok _ _ _ _ _ _ _ a' R2 S1 S2 S3) as (m2 & Es & R3). rewrite Es. cbn [obind]. eexists. split; [reflexivity|]. unfold vputS. rewrite <- EF1. apply (K1 _ (mkbs (flip b) o' a') x p1). apply (rep_set_str _ _ _ _ _ _ _ R3).
Qed.
Lemma run_ok : forall os q v rs v', rel q v -> vrun v os = Ok (rs, v') -> exists q', prun pick q os = Ok (rs, q') /\ rel q' v'.
Proof.
  induction os as [|o os IH]; intros q v rs v' R E; cbn [vrun] in E; cbn [prun].
  - inv_ok E. exists q. split; [reflexivity|exact R].
  - apply obind_ok in E. destruct E as ([r v1] & E1 & E). apply obind_ok in E. destruct E as ([l v2] & E2 & E). inv_ok E. destruct (step_ok _ _ _ _ _ R E1) as (q1 & P1 & R1). rewrite P1. cbn [obind]. destruct (IH _ _ _ _ R1 E2) as (q2 & P2 & R2). rewrite P2. cbn [obind]. exists q2. split; [reflexivity|exact R2].
Qed.
End Step.
Lemma rel_start : rel pstart vstart.
Proof. exists [], [], []. split; [|repeat split; intros [|i] x E; discriminate]. split; [constructor|]. split; [constructor|]. split; [constructor|]. split; constructor. Qed.
