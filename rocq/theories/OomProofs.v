(** Running out of memory: proofs. *)
From Coq Require Import Permutation.
From Verif Require Import Prelude CstrModel HeapModel Perm AraceSpec AraceProofs OomModel OomSpec.

Local Open Scope nat_scope.
Section P.
Variable pick : nat -> list nat -> nat.
Variable gives : nat -> bool.
Hypothesis G : good pick.
Notation request := (request pick gives). Notation require := (require pick gives). Notation add := (add pick gives).

Lemma refused_self i : refused gives i i = 0.
Proof. unfold refused. now rewrite Nat.sub_diag. Qed.
Lemma refused_app i j k : i <= j -> j <= k -> refused gives i k = refused gives i j + refused gives j k.
Proof. intros A B. unfold refused. replace (k - i) with ((j - i) + (k - j)) by lia. rewrite seq_app, filter_app, app_length. replace (i + (j - i)) with j by lia. reflexivity. Qed.
Lemma refused_one i : refused gives i (S i) = if gives i then 0 else 1.
Proof. unfold refused. replace (S i - i) with 1 by lia. cbn. destruct (gives i); reflexivity. Qed.

Lemma request_yes m c L : gives (asked m) = true -> owns (heap m) L -> exists x h, request m c = (x, mkmem h (S (asked m))) /\ owns h ((x, c) :: L) /\ x <> 0.
Proof.
  intros Y O. unfold OomModel.request. rewrite Y. destruct (owns_new pick (heap m) c L G O) as (x & h & E & O'). rewrite E. exists x, h. split; [reflexivity|]. split; [exact O'|]. eapply owns_nonnull; [exact O'|now left].
Qed.
Lemma request_no m c : gives (asked m) = false -> request m c = (0, mkmem (heap m) (S (asked m))).
Proof. intros Y. unfold OomModel.request. now rewrite Y. Qed.
Lemma require_yes m c L : gives (asked m) = true -> owns (heap m) L -> exists x h, require m c = Ok (x, mkmem h (S (asked m))) /\ owns h ((x, c) :: L) /\ x <> 0.
Proof. intros Y O. destruct (request_yes m c L Y O) as (x & h & E & O'). exists x, h. unfold OomModel.require. rewrite Y, E. auto. Qed.
Lemma release_ok m x c L : owns (heap m) ((x, c) :: L) -> exists h, release m x = Ok (mkmem h (asked m)) /\ owns h L.
Proof. intros O. destruct (owns_free _ _ _ _ O) as (h & E & O'). exists h. unfold release. rewrite E. auto. Qed.

(** ** The array *)
Definition own (a ar size : nat) (ptrs : list nat) (kept : list (list Z)) : list (nat * blk) := (a, Arr size (length ptrs) ar) :: (ar, Slots size ptrs) :: combine ptrs (map Text kept).
Definition holds (m : mem) (a : nat) (kept : list (list Z)) (L : list (nat * blk)) : Prop :=
  exists ar size ptrs, owns (heap m) (own a ar size ptrs kept ++ L) /\ length ptrs = length kept /\ length ptrs <= size.

Lemma arr_ok m L a s c d : owns (heap m) L -> In (a, Arr s c d) L -> arr_at m a = Ok (s, c, d).
Proof. intros O I. unfold arr_at. now rewrite (owns_in _ _ _ _ O I). Qed.
Lemma slots_ok m L a n l : owns (heap m) L -> In (a, Slots n l) L -> slots_at m a = Ok (n, l).
Proof. intros O I. unfold slots_at. now rewrite (owns_in _ _ _ _ O I). Qed.
Lemma text_ok m L a s : owns (heap m) L -> In (a, Text s) L -> text_at m a = Ok s.
Proof. intros O I. unfold text_at. now rewrite (owns_in _ _ _ _ O I). Qed.

Lemma add_ok m a kept t x L : holds m a kept ((x, Text t) :: L) -> x <> 0 ->
  (exists m', add m a x = Ok m' /\ holds m' a (kept ++ [t]) L /\ asked m <= asked m' /\ refused gives (asked m) (asked m') = 0) \/ (add m a x = Abort /\ gives (asked m) = false).
Proof.
  intros (ar & size & ptrs & O & Lk & Ls) Nx. unfold OomModel.add. apply Nat.eqb_neq in Nx. rewrite Nx.
  assert (FIN : forall m' ar' size', owns (heap m') (own a ar' size' ptrs kept ++ (x, Text t) :: L) -> length ptrs < size' -> asked m <= asked m' -> refused gives (asked m) (asked m') = 0 ->
     exists m2, (' (s, c, d) <- arr_at m' a ;; ' (n, l) <- slots_at m' d ;; _ <- safe (c <? n) ;; Ok (put (put m' d (Slots n (firstn c l ++ [x]))) a (Arr s (S c) d))) = Ok m2 /\ holds m2 a (kept ++ [t]) L /\ asked m <= asked m2 /\ refused gives (asked m) (asked m2) = 0).
  { intros m' ar' size' O' Lt As Rf. rewrite (arr_ok _ _ _ _ _ _ O' (or_introl eq_refl)). cbn [obind]. rewrite (slots_ok _ _ _ _ _ O' (or_intror (or_introl eq_refl))). cbn [obind].
    unfold safe. replace (length ptrs <? size') with true by (symmetry; now apply Nat.ltb_lt). cbn [obind]. eexists. split; [reflexivity|]. cbn [put asked]. split; [|auto].
    exists ar', size', (ptrs ++ [x]). rewrite !app_length. cbn [length]. split; [|lia]. unfold put. cbn [heap]. rewrite firstn_all. unfold own. rewrite app_length. cbn [length]. replace (length ptrs + 1) with (S (length ptrs)) by lia.
    apply (owns_perm _ ((a, Arr size' (S (length ptrs)) ar') :: (ar', Slots size' (ptrs ++ [x])) :: combine ptrs (map Text kept) ++ (x, Text t) :: L)).
    - apply owns_put with (c := Arr size' (length ptrs) ar'). apply (owns_perm _ ((ar', Slots size' (ptrs ++ [x])) :: (a, Arr size' (length ptrs) ar') :: combine ptrs (map Text kept) ++ (x, Text t) :: L)); [|perm].
      apply owns_put with (c := Slots size' ptrs). eapply owns_perm; [exact O'|]. unfold own. cbn [app]. perm.
    - cbn [app]. apply perm_skip, perm_skip. rewrite map_app. cbn [map]. assert (CA : forall A B (l1 : list A) (l2 : list B) a b, length l1 = length l2 -> combine (l1 ++ [a]) (l2 ++ [b]) = combine l1 l2 ++ [(a, b)]).
      { clear. induction l1 as [|y l1 IH]; intros [|z l2] a b H; try discriminate; [reflexivity|]. cbn [app combine]. f_equal. apply IH. cbn in H. lia. }
      rewrite CA by (rewrite map_length; exact Lk). perm. }
  rewrite (arr_ok _ _ _ _ _ _ O (or_introl eq_refl)). cbn [obind]. destruct (Nat.leb_spec size (length ptrs)) as [Fu|Fu].
  - unfold resize. rewrite (arr_ok _ _ _ _ _ _ O (or_introl eq_refl)). cbn [obind]. destruct (gives (asked m)) eqn:Gv.
    + left. destruct (require_yes m (Slots (size + 32) []) _ Gv O) as (e & h & E & O1 & Ne). rewrite E. cbn [obind].
      rewrite (slots_ok (mkmem h (S (asked m))) _ _ _ _ O1 (or_intror (or_intror (or_introl eq_refl)))). cbn [obind]. unfold safe. rewrite Nat.leb_refl. cbn [obind]. rewrite firstn_all.
      assert (O2 : owns (heap (put (mkmem h (S (asked m))) e (Slots (size + 32) ptrs))) ((ar, Slots size ptrs) :: (e, Slots (size + 32) ptrs) :: (a, Arr size (length ptrs) ar) :: combine ptrs (map Text kept) ++ (x, Text t) :: L)).
      { unfold put. cbn [heap]. eapply owns_perm; [eapply owns_put; exact O1|]. unfold own. cbn [app]. perm. }
      destruct (release_ok _ _ _ _ O2) as (h2 & E2 & O3). rewrite E2. cbn [obind]. cbn [put asked] in *.
      apply (FIN (mkmem (hput h2 a (Arr (size + 32) (length ptrs) e)) (S (asked m))) e (size + 32)); cbn [heap asked]; [|lia|lia|rewrite refused_one, Gv; reflexivity].
      unfold own. cbn [app]. apply owns_put with (c := Arr size (length ptrs) ar). eapply owns_perm; [exact O3|]. perm.
    + right. split; [|reflexivity]. unfold OomModel.require. rewrite Gv. reflexivity.
  - left. cbn [obind]. apply (FIN m ar size O Fu); [lia|apply refused_self].
Qed.

(** strings added one after the other *)
Fixpoint feed (m : mem) (a copy : nat) (ps : list (list Z)) : outcome mem :=
  match ps with [] => Ok m | p :: r => _ <- text_at m copy ;; let (x, m) := request m (Text p) in m <- add m a x ;; feed m a copy r end.
Lemma feed_ok a copy s L : forall ps m kept, holds m a kept ((copy, Text s) :: L) ->
  (exists m' k2, feed m a copy ps = Ok m' /\ holds m' a (kept ++ k2) ((copy, Text s) :: L) /\ sub k2 ps /\ asked m <= asked m' /\ length ps = length k2 + refused gives (asked m) (asked m')) \/
  (feed m a copy ps = Abort /\ exists k, asked m <= k /\ gives k = false).
Proof.
  induction ps as [|p ps IH]; intros m kept H; cbn [feed].
  - left. exists m, []. rewrite app_nil_r, refused_self. repeat split; auto. constructor.
  - assert (TC : text_at m copy = Ok s). { destruct H as (ar & size & ptrs & O & _). eapply text_ok; [exact O|]. apply in_app_iff. right. now left. }
    rewrite TC. cbn [obind]. destruct (gives (asked m)) eqn:Gv.
    + destruct H as (ar & size & ptrs & O & Lk & Ls). destruct (request_yes m (Text p) _ Gv O) as (x & h & E & O1 & Nx). rewrite E.
      assert (H1 : holds (mkmem h (S (asked m))) a kept ((x, Text p) :: (copy, Text s) :: L)) by (exists ar, size, ptrs; cbn [heap]; split; [eapply owns_perm; [exact O1|]; perm|auto]).
      destruct (add_ok _ _ _ _ _ _ H1 Nx) as [(m1 & E1 & H2 & A1 & R1)|(E1 & R1)]; rewrite E1; cbn [obind asked] in *.
      * destruct (IH m1 (kept ++ [p]) H2) as [(m' & k2 & E2 & H3 & Sb & A2 & R2)|(E2 & k & A2 & R2)].
        -- left. exists m', (p :: k2). rewrite E2. split; [reflexivity|]. split; [rewrite <- app_assoc in H3; exact H3|]. split; [now constructor|]. split; [lia|]. cbn [length].
           rewrite (refused_app (asked m) (S (asked m)) (asked m')) by lia. rewrite (refused_app (S (asked m)) (asked m1) (asked m')) by lia. rewrite refused_one, Gv, R1. lia.
        -- right. split; [exact E2|]. exists k. split; [lia|exact R2].
      * right. split; [reflexivity|]. eauto.
    + rewrite (request_no m (Text p) Gv). unfold OomModel.add. cbn [Nat.eqb obind].
      destruct (IH (mkmem (heap m) (S (asked m))) kept) as [(m' & k2 & E2 & H3 & Sb & A2 & R2)|(E2 & k & A2 & R2)]; [exact H|..]; cbn [asked] in *.
      * left. exists m', k2. split; [exact E2|]. split; [exact H3|]. split; [now constructor|]. split; [lia|]. cbn [length]. rewrite (refused_app (asked m) (S (asked m)) (asked m')) by lia. rewrite refused_one, Gv. lia.
      * right. split; [exact E2|]. exists k. split; [lia|exact R2].
Qed.

Lemma init_ok m L : owns (heap m) L -> (exists a m', init pick gives m = Ok (a, m') /\ holds m' a [] L /\ asked m' = S (S (asked m)) /\ gives (asked m) = true /\ gives (S (asked m)) = true) \/
  (init pick gives m = Abort /\ exists k, asked m <= k <= S (asked m) /\ gives k = false).
Proof.
  intros O. unfold init. destruct (gives (asked m)) eqn:G1; [|right; split; [unfold OomModel.require; rewrite G1; reflexivity|exists (asked m); split; [lia|exact G1]]].
  destruct (require_yes m (Arr 0 0 0) L G1 O) as (a & h & E & O1 & Na). rewrite E. cbn [obind].
  destruct (gives (S (asked m))) eqn:G2; [|right; split; [unfold OomModel.require; cbn [asked]; rewrite G2; reflexivity|exists (S (asked m)); split; [lia|exact G2]]].
  destruct (require_yes (mkmem h (S (asked m))) (Slots 32 []) _ G2 O1) as (d & h2 & E2 & O2 & Nd). rewrite E2. cbn [obind asked]. left. eexists _, _. split; [reflexivity|]. split; [|auto].
  exists d, 32, []. split; [|cbn; lia]. unfold own, put. cbn [length combine app heap]. apply owns_put with (c := Arr 0 0 0). eapply owns_perm; [exact O2|]. perm.
Qed.
Lemma read_ok m a kept L : holds m a kept L -> strings m a = Ok kept.
Proof.
  intros (ar & size & ptrs & O & Lk & _). unfold strings. rewrite (arr_ok _ _ _ _ _ _ O (or_introl eq_refl)). cbn [obind]. rewrite (slots_ok _ _ _ _ _ O (or_intror (or_introl eq_refl))). cbn [obind]. unfold safe. rewrite Nat.leb_refl. cbn [obind]. rewrite firstn_all.
  assert (K : forall ps ks, length ps = length ks -> (forall p t, In (p, Text t) (combine ps (map Text ks)) -> text_at m p = Ok t) -> all_ok (text_at m) ps = Ok ks).
  { induction ps as [|p ps IH]; intros [|k ks] E H; try discriminate; [reflexivity|]. cbn [all_ok]. rewrite (H p k) by now left. cbn [obind]. rewrite (IH ks); [reflexivity|cbn in E; lia|]. intros. apply H. now right. }
  apply K; [exact Lk|]. intros p t I. eapply text_ok; [exact O|]. apply in_app_iff. left. right. right. exact I.
Qed.
Lemma free_each_ok : forall ps ks m L, length ps = length ks -> owns (heap m) (combine ps (map Text ks) ++ L) -> exists h, free_each m ps = Ok (mkmem h (asked m)) /\ owns h L.
Proof.
  induction ps as [|p ps IH]; intros [|k ks] m L E O; try discriminate; cbn [free_each].
  - exists (heap m). destruct m. auto.
  - cbn [map combine app] in O. assert (N : p <> 0) by (eapply owns_nonnull; [exact O|now left]). apply Nat.eqb_neq in N. rewrite N. destruct (release_ok _ _ _ _ O) as (h & E1 & O1). rewrite E1. cbn [obind].
    destruct (IH ks (mkmem h (asked m)) L) as (h2 & E2 & O2); [cbn in E; lia|exact O1|]. eauto.
Qed.
Lemma free_ok m a kept L : holds m a kept L -> exists m', free_all m a = Ok m' /\ owns (heap m') L.
Proof.
  intros (ar & size & ptrs & O & Lk & _). unfold free_all. rewrite (arr_ok _ _ _ _ _ _ O (or_introl eq_refl)). cbn [obind]. rewrite (slots_ok _ _ _ _ _ O (or_intror (or_introl eq_refl))). cbn [obind]. unfold safe. rewrite Nat.leb_refl. cbn [obind]. rewrite firstn_all.
  destruct (free_each_ok ptrs kept m ((ar, Slots size ptrs) :: (a, Arr size (length ptrs) ar) :: L) Lk) as (h & E & O1); [eapply owns_perm; [exact O|]; unfold own; cbn [app]; perm|]. rewrite E. cbn [obind].
  destruct (release_ok (mkmem h (asked m)) _ _ _ O1) as (h2 & E2 & O2). rewrite E2. cbn [obind]. destruct (release_ok (mkmem h2 (asked (mkmem h (asked m)))) _ _ _ O2) as (h3 & E3 & O3). rewrite E3. eauto.
Qed.

(** ** The loops *)
Lemma obind_assoc {A B C} (o : outcome A) (f : A -> outcome B) (g : B -> outcome C) : obind (obind o f) g = obind o (fun x => obind (f x) g).
Proof. destruct o; reflexivity. Qed.
Lemma split_feed delim a copy : forall fuel rest ps m, split_loop fuel rest delim = Ok ps -> split_go pick gives fuel m a copy rest delim = feed m a copy ps.
Proof.
  induction fuel as [|f IH]; intros rest ps m E; cbn [split_loop] in E; cbn [split_go]; destruct (strtok rest delim) as [[t r]|]; try discriminate; try (assert (ps = []) by congruence; subst; reflexivity).
  apply obind_ok in E. destruct E as (q & E & E2). assert (ps = t :: q) by congruence. subst. cbn [feed]. destruct (text_at m copy); try reflexivity. cbn [obind]. destruct (request m (Text t)) as [x m1]. destruct (add m1 a x) as [m2| | |]; try reflexivity. cbn [obind]. now apply IH.
Qed.
Lemma cut_feed delim keep a copy : forall fuel pos ps m, cut_loop fuel pos delim keep = Ok ps -> cut_go pick gives fuel m a copy pos delim keep = feed m a copy ps.
Proof.
  induction fuel as [|f IH]; intros pos ps m E; cbn [cut_loop] in E; cbn [cut_go]; destruct (delim =? 0)%Z; try discriminate; destruct (index_of pos delim) as [k|]; try (assert (ps = []) by congruence; subst; reflexivity); cbv zeta in E; destruct (skipn (k + 1) pos) as [|c r] eqn:Sk; try discriminate; try (assert (ps = []) by congruence; subst; reflexivity).
  apply obind_ok in E. destruct E as (q & E & E2). assert (X : ps = (if keep then delim :: c :: r else c :: r) :: q) by congruence. subst ps. cbn [feed]. destruct (text_at m copy); try reflexivity. cbn [obind]. match goal with |- context [request m (Text ?t)] => destruct (request m (Text t)) as [x m1] end. destruct (add m1 a x) as [m2| | |]; try reflexivity. cbn [obind]. now apply IH.
Qed.
Lemma tok_feed delim a copy : forall fuel s ps m, tok_loop fuel s delim = Ok ps -> tok_go pick gives fuel m a copy s delim = feed m a copy ps.
Proof.
  assert (LAST : forall s m, (_ <- text_at m copy ;; let (x, m1) := request m (Text s) in add m1 a x) = feed m a copy [s]).
  { intros s m. cbn [feed]. destruct (text_at m copy); try reflexivity. cbn [obind]. destruct (request m (Text s)) as [x m1]. destruct (add m1 a x); reflexivity. }
  induction fuel as [|f IH]; intros s ps m E; cbn [tok_loop] in E; cbn [tok_go]; destruct (rindex_of s delim) as [[|k]|]; try discriminate; try (assert (ps = [s]) by congruence; subst; apply LAST).
  apply obind_ok in E. destruct E as (q & E & E2). assert (ps = s :: q) by congruence. subst. cbn [feed]. destruct (text_at m copy); try reflexivity. cbn [obind]. destruct (request m (Text s)) as [x m1]. destruct (add m1 a x) as [m2| | |]; try reflexivity. cbn [obind]. now apply IH.
Qed.

(** the three functions are this one *)
Definition whole (m : mem) (str : list Z) (ps : list (list Z)) : outcome (nat * mem) :=
  ' (a, m) <- init pick gives m ;; let (copy, m) := request m (Text str) in if (copy =? 0)%nat then UB else m <- feed m a copy ps ;; m <- release m copy ;; Ok (a, m).
Lemma split_whole m str delim ps : zt_cstr_split str delim = Ok ps -> split pick gives m str delim = whole m str ps.
Proof.
  intros E. unfold split, whole. destruct (init pick gives m) as [[a m1]| | |]; try reflexivity. cbn [obind]. destruct (request m1 (Text str)) as [x m2]. destruct (x =? 0); [reflexivity|]. now rewrite (split_feed _ _ _ _ _ _ _ E).
Qed.
Lemma cut_whole m str d k ps : zt_cstr_cut str d k = Ok ps -> cut pick gives m str d k = whole m str ps.
Proof.
  intros E. unfold cut, whole. destruct (init pick gives m) as [[a m1]| | |]; try reflexivity. cbn [obind]. destruct (request m1 (Text str)) as [x m2]. destruct (x =? 0); [reflexivity|]. now rewrite (cut_feed _ _ _ _ _ _ _ _ E).
Qed.
Lemma tok_whole m str d ps : zt_cstr_tok str d = Ok ps -> tok pick gives m str d = whole m str ps.
Proof.
  intros E. unfold tok, whole, zt_cstr_tok in *. destruct (init pick gives m) as [[a m1]| | |]; try reflexivity. cbn [obind]. destruct (request m1 (Text str)) as [x m2]. destruct (rev str) as [|c r]; [discriminate|]. cbv zeta in E. destruct (x =? 0); [reflexivity|]. now rewrite (tok_feed _ _ _ _ _ _ _ E).
Qed.
Lemma whole_ok m str ps L : owns (heap m) L ->
  (exists a m' kept, whole m str ps = Ok (a, m') /\ strings m' a = Ok kept /\ sub kept ps /\ length ps = length kept + refused gives (asked m) (asked m') /\ exists m'', free_all m' a = Ok m'' /\ owns (heap m'') L) \/
  (whole m str ps = Abort /\ exists k, asked m <= k /\ gives k = false) \/ (whole m str ps = UB /\ gives (2 + asked m) = false).
Proof.
  intros O. unfold whole. destruct (init_ok m L O) as [(a & m1 & E & H & A & Ga & Gb)|(E & k & A & Gk)]; rewrite E; cbn [obind]; [|right; left; split; [reflexivity|exists k; split; [lia|exact Gk]]].
  destruct (gives (asked m1)) eqn:Gv; [|right; right; rewrite (request_no _ _ Gv); cbn [Nat.eqb]; split; [reflexivity|rewrite A in Gv; exact Gv]].
  destruct H as (ar & size & ptrs & O1 & Lk & Ls). destruct (request_yes m1 (Text str) _ Gv O1) as (x & h & E1 & O2 & Nx). rewrite E1. apply Nat.eqb_neq in Nx. rewrite Nx.
  assert (H1 : holds (mkmem h (S (asked m1))) a [] ((x, Text str) :: L)) by (exists ar, size, ptrs; cbn [heap]; split; [eapply owns_perm; [exact O2|]; perm|auto]).
  destruct (feed_ok a x str L ps _ _ H1) as [(m2 & k2 & E2 & H2 & Sb & A2 & R2)|(E2 & k & A2 & R2)]; rewrite E2; cbn [obind asked] in *; [|right; left; split; [reflexivity|exists k; split; [lia|exact R2]]].
  left. destruct H2 as (ar2 & size2 & ptrs2 & O3 & Lk2 & Ls2). cbn [app] in O3, Lk2. assert (O4 : owns (heap m2) ((x, Text str) :: own a ar2 size2 ptrs2 k2 ++ L)) by (eapply owns_perm; [exact O3|]; perm).
  destruct (release_ok _ _ _ _ O4) as (h2 & E4 & O5). rewrite E4. cbn [obind]. assert (H3 : holds (mkmem h2 (asked m2)) a k2 L) by (exists ar2, size2, ptrs2; auto).
  destruct (free_ok _ _ _ _ H3) as (m3 & E5 & O6). exists a, (mkmem h2 (asked m2)), k2. split; [reflexivity|]. split; [eapply read_ok; exact H3|]. split; [exact Sb|]. split; [|eauto]. cbn [asked].
  rewrite (refused_app (asked m) (S (asked m)) (asked m2)) by lia. rewrite (refused_app (S (asked m)) (S (S (asked m))) (asked m2)) by lia. rewrite (refused_app (S (S (asked m))) (S (asked m1)) (asked m2)) by lia. rewrite <- A, refused_one. rewrite A in *. rewrite !refused_one, Ga, Gb, Gv. lia.
Qed.

(** ** String options *)
Lemma find_ok : forall ps z, Forall (fun x => x <> 0) ps -> find_null (ps ++ 0 :: z) = Ok (length ps).
Proof. induction ps as [|p ps IH]; intros z F; [reflexivity|]. apply Forall_cons_iff in F. destruct F as (N & F). cbn [app find_null]. apply Nat.eqb_neq in N. rewrite N, (IH z F). reflexivity. Qed.
Definition keeps (m : mem) (p : nat) (kept : list (list Z)) (L : list (nat * blk)) : Prop :=
  (p = 0 /\ kept = [] /\ owns (heap m) L) \/
  (p <> 0 /\ exists ptrs z, owns (heap m) ((p, Slots (length (ptrs ++ 0 :: z)) (ptrs ++ 0 :: z)) :: combine ptrs (map Text kept) ++ L) /\ length ptrs = length kept).
Lemma owned_nonnull m ps ks X L : owns (heap m) (X ++ combine ps (map Text ks) ++ L) -> length ps = length ks -> Forall (fun x => x <> 0) ps.
Proof.
  intros O E. apply Forall_forall. intros x I. assert (J : exists c, In (x, c) (combine ps (map Text ks))).
  { clear O. revert ks E. induction ps as [|p ps IH]; intros [|k ks] E; try discriminate; [destruct I|]. destruct I as [->|I]; [exists (Text k); now left|]. destruct (IH I ks) as (c & J); [cbn in E; lia|]. exists c. now right. }
  destruct J as (c & J). eapply owns_nonnull; [exact O|]. rewrite !in_app_iff. eauto.
Qed.
Lemma combine_snoc {A B} (l1 : list A) (l2 : list B) a b : length l1 = length l2 -> combine (l1 ++ [a]) (l2 ++ [b]) = combine l1 l2 ++ [(a, b)].
Proof. revert l2. induction l1 as [|y l1 IH]; intros [|z l2] H; try discriminate; [reflexivity|]. cbn [app combine]. f_equal. apply IH. cbn in H. lia. Qed.
Lemma array_step m p kept L arg : keeps m p kept L ->
  (exists e m', opt_array pick gives m p arg = Ok (e, m') /\ e <> 0 /\ asked m' = 2 + asked m /\ gives (asked m) = true /\ keeps m' e (kept ++ if gives (S (asked m)) then [arg] else []) L) \/
  (opt_array pick gives m p arg = Abort /\ gives (asked m) = false).
Proof.
  intros K. unfold opt_array.
  assert (C : exists ptrs l, (if (p =? 0)%nat then Ok (0, []) else ' (_, l) <- slots_at m p ;; k <- find_null l ;; Ok (k, l)) = Ok (length ptrs, l) /\ firstn (length ptrs) l = ptrs /\ length ptrs = length kept /\
     owns (heap m) ((if p =? 0 then [] else [(p, Slots (length l) l)]) ++ combine ptrs (map Text kept) ++ L)).
  { destruct K as [(-> & -> & O)|(Np & ptrs & z & O & Lk)]; [exists [], []; cbn; auto|]. exists ptrs, (ptrs ++ 0 :: z). pose proof Np as Nq. apply Nat.eqb_neq in Nq. rewrite Nq. rewrite (slots_ok _ _ _ _ _ O (or_introl eq_refl)). cbn [obind].
    rewrite find_ok; [|apply (owned_nonnull m ptrs kept [(p, Slots (length (ptrs ++ 0 :: z)) (ptrs ++ 0 :: z))] L O Lk)]. cbn [obind]. split; [reflexivity|]. split; [rewrite firstn_app, firstn_all, Nat.sub_diag; cbn [firstn]; now rewrite app_nil_r|]. split; [exact Lk|exact O]. }
  destruct C as (ptrs & l & -> & Fl & Lk & O). cbn [obind]. destruct (gives (asked m)) eqn:G1; [|right; unfold OomModel.require; rewrite G1; auto]. left.
  match goal with |- context [require m ?c] => destruct (require_yes m c _ G1 O) as (e & h & E & O1 & Ne) end. rewrite E. cbn [obind].
  assert (R : exists h2, (if p =? 0 then Ok (mkmem h (S (asked m))) else release (mkmem h (S (asked m))) p) = Ok (mkmem h2 (S (asked m))) /\ owns h2 ((e, Slots (length ptrs + 2) (firstn (length ptrs + 2) l)) :: combine ptrs (map Text kept) ++ L)).
  { destruct (p =? 0); [exists h; auto|]. apply (release_ok (mkmem h (S (asked m))) p (Slots (length l) l)). cbn [heap]. eapply owns_perm; [exact O1|]. perm. }
  destruct R as (h2 & -> & O2). cbn [obind]. rewrite Fl. destruct (gives (S (asked m))) eqn:G2.
  - destruct (request_yes (mkmem h2 (S (asked m))) (Text arg) _ G2 O2) as (x & h3 & E3 & O3 & Nx). rewrite E3. eexists _, _. split; [reflexivity|]. split; [exact Ne|]. split; [reflexivity|]. split; [reflexivity|].
    right. split; [exact Ne|]. exists (ptrs ++ [x]), []. rewrite <- app_assoc. cbn [app]. rewrite !app_length. cbn [length]. split; [|lia]. unfold put. cbn [heap].
    replace (length ptrs + 2) with (length ptrs + 2) by lia. rewrite map_app. cbn [map]. rewrite combine_snoc by (rewrite map_length; exact Lk).
    apply owns_put with (c := Slots (length ptrs + 2) (firstn (length ptrs + 2) l)). eapply owns_perm; [exact O3|]. perm.
  - rewrite (request_no (mkmem h2 (S (asked m))) (Text arg) G2). eexists _, _. split; [reflexivity|]. split; [exact Ne|]. split; [reflexivity|]. split; [reflexivity|]. right. split; [exact Ne|]. exists ptrs, [0]. rewrite app_nil_r. rewrite !app_length. cbn [length]. split; [|exact Lk]. unfold put. cbn [heap].
    apply owns_put with (c := Slots (length ptrs + 2) (firstn (length ptrs + 2) l)). exact O2.
Qed.
Lemma arrays_ok L : forall args m p kept, keeps m p kept L ->
  (exists e m' k2, opt_arrays pick gives m p args = Ok (e, m') /\ (args <> [] -> e <> 0) /\ keeps m' e (kept ++ k2) L /\ sub k2 args /\ asked m <= asked m' /\ length args = length k2 + refused gives (asked m) (asked m')) \/
  (opt_arrays pick gives m p args = Abort /\ exists k, asked m <= k /\ gives k = false).
Proof.
  induction args as [|a args IH]; intros m p kept K; cbn [opt_arrays].
  - left. exists p, m, []. rewrite app_nil_r, refused_self. split; [reflexivity|]. split; [congruence|]. split; [exact K|]. split; [constructor|]. split; [lia|reflexivity].
  - destruct (array_step m p kept L a K) as [(e & m1 & E & Ne & A & G1 & K1)|(E & G1)]; rewrite E; cbn [obind]; [|right; eauto].
    destruct (IH m1 e _ K1) as [(e2 & m' & k2 & E2 & N2 & K2 & Sb & A2 & R2)|(E2 & k & A2 & R2)]; [|right; split; [exact E2|exists k; split; [lia|exact R2]]].
    left. exists e2, m', ((if gives (S (asked m)) then [a] else []) ++ k2). split; [exact E2|]. split; [intros _; destruct args as [|b args]; [cbn [opt_arrays] in E2; congruence|apply N2; discriminate]|]. split; [rewrite app_assoc; exact K2|]. split; [destruct (gives (S (asked m))); [now constructor|now constructor]|]. split; [lia|].
    rewrite (refused_app (asked m) (S (asked m)) (asked m')) by lia. rewrite (refused_app (S (asked m)) (S (S (asked m))) (asked m')) by lia. rewrite !refused_one, G1. replace (S (S (asked m))) with (asked m1) by lia. rewrite app_length. cbn [length]. destruct (gives (S (asked m))); cbn [length]; lia.
Qed.
Lemma keeps_read m p kept L : keeps m p kept L -> p <> 0 -> terminated m p kept /\ exists ptrs n l, owns (heap m) ((p, Slots n l) :: combine ptrs (map Text kept) ++ L) /\ length ptrs = length kept.
Proof.
  intros [(-> & _)|(_ & ptrs & z & O & Lk)] N; [contradiction|]. split; [|eauto 6]. exists ptrs, (length (ptrs ++ 0 :: z)), z. split; [eapply slots_ok; [exact O|now left]|]. split; [reflexivity|]. split; [apply (owned_nonnull m ptrs kept [(p, Slots (length (ptrs ++ 0 :: z)) (ptrs ++ 0 :: z))] L O Lk)|].
  assert (X : forall ps ks, length ps = length ks -> (forall p t, In (p, Text t) (combine ps (map Text ks)) -> text_at m p = Ok t) -> all_ok (text_at m) ps = Ok ks).
  { induction ps as [|q ps IH]; intros [|k ks] E H; try discriminate; [reflexivity|]. cbn [all_ok]. rewrite (H q k) by now left. cbn [obind]. rewrite (IH ks); [reflexivity|cbn in E; lia|]. intros. apply H. now right. }
  apply X; [exact Lk|]. intros q t I. eapply text_ok; [exact O|]. right. apply in_app_iff. now left.
Qed.
Lemma strings_ok : forall args m p L, owns (heap m) L -> exists q m' ptrs kept, opt_strings pick gives m p args = (q, m') /\ owns (heap m') (combine ptrs (map Text kept) ++ L) /\ length ptrs = length kept /\ sub kept args /\ asked m' = length args + asked m /\
  length args = length kept + refused gives (asked m) (asked m') /\ (args = [] -> q = p) /\ (forall pre a, args = pre ++ [a] -> if gives (length pre + asked m) then text_at m' q = Ok a /\ q <> 0 else q = 0).
Proof.
  induction args as [|a args IH]; intros m p L O; cbn [opt_strings].
  - exists p, m, [], []. rewrite refused_self. split; [reflexivity|]. split; [exact O|]. split; [reflexivity|]. split; [constructor|]. split; [reflexivity|]. split; [reflexivity|]. split; [reflexivity|]. intros [|? ?] ? X; discriminate.
  - unfold opt_string. destruct (gives (asked m)) eqn:Gv.
    + destruct (request_yes m (Text a) _ Gv O) as (x & h & E & O1 & Nx). rewrite E. destruct (IH (mkmem h (S (asked m))) x _ O1) as (q & m' & ptrs & kept & E2 & O2 & Lk & Sb & A2 & R2 & Q0 & Q). cbn [asked] in *. exists q, m', (x :: ptrs), (a :: kept).
      split; [exact E2|]. split; [eapply owns_perm; [exact O2|]; cbn [map combine app]; perm|]. cbn [length]. split; [lia|]. split; [now constructor|]. split; [lia|]. split; [|split; [discriminate|]].
      * rewrite (refused_app (asked m) (S (asked m)) (asked m')) by lia. rewrite refused_one, Gv. lia.
      * intros [|b pre] c X; cbn [app] in X.
        -- assert (a = c /\ args = []) as (-> & ->) by (split; congruence). cbn [length Nat.add]. rewrite Gv. rewrite (Q0 eq_refl). split; [|exact Nx]. eapply text_ok; [exact O2|]. apply in_app_iff. right. now left.
        -- assert (a = b /\ args = pre ++ [c]) as (-> & Y) by (split; congruence). specialize (Q pre c Y). cbn [length]. replace (S (length pre) + asked m) with (length pre + S (asked m)) by lia. exact Q.
    + rewrite (request_no m (Text a) Gv). destruct (IH (mkmem (heap m) (S (asked m))) 0 _ O) as (q & m' & ptrs & kept & E2 & O2 & Lk & Sb & A2 & R2 & Q0 & Q). cbn [asked] in *. exists q, m', ptrs, kept.
      split; [exact E2|]. split; [exact O2|]. cbn [length]. split; [lia|]. split; [now constructor|]. split; [lia|]. split; [|split; [discriminate|]].
      * rewrite (refused_app (asked m) (S (asked m)) (asked m')) by lia. rewrite refused_one, Gv. lia.
      * intros [|b pre] c X; cbn [app] in X.
        -- assert (a = c /\ args = []) as (-> & ->) by (split; congruence). cbn [length Nat.add]. rewrite Gv. now apply Q0.
        -- assert (a = b /\ args = pre ++ [c]) as (-> & Y) by (split; congruence). specialize (Q pre c Y). cbn [length]. replace (S (length pre) + asked m) with (length pre + S (asked m)) by lia. exact Q.
Qed.
End P.
