(** C63: sets in memory; the same set for several arguments; destroying sets. *)
From Verif Require Import Prelude HashModel TableModel TableProofs TableCopy SetModel SetProofs TptrModel TptrSpec TptrProofs TptrSelf SptrModel SptrSpec SptrProofs PropSet.
From Coq Require Import Permutation.
Open Scope Z_scope.

Section P.
Variable matchf : elt -> elt -> bool.
Variable pick : nat -> list nat -> nat.
Hypothesis EQ : equivalence elt matchf.
Hypothesis fresh : forall c l, ~ In (pick c l) l.
Notation memb := (memb matchf).
Notation sound := (sound matchf).
Notation absorb := (absorb matchf).
Notation mem := (SetProofs.mem matchf).

(** the set that w_member looks at: [j] as it is when set [v] has the members l *)
Definition now_at (j v : nat) (l lj : list elt) : list elt := if (j =? v)%nat then l else lj.
Lemma now_ok w LL LL0 j v l lj : sound w LL -> rest_same v LL0 LL -> nth_error LL v = Some l -> nth_error LL0 j = Some lj -> nth_error LL j = Some (now_at j v l lj).
Proof. intros _ RS N Nj. unfold now_at. destruct (Nat.eqb_spec j v) as [->|NE]; [exact N|]. now rewrite (RS j NE). Qed.
Lemma cb_union fuel v LL0 : cb_ok matchf pick fuel v LL0 (fun _ _ => true) (union_cb matchf pick fuel v).
Proof. intros w LL l e _ _ _ _. reflexivity. Qed.
Lemma cb_intersect fuel v j LL0 lj : nth_error LL0 j = Some lj -> cb_ok matchf pick fuel v LL0 (fun l e => memb (now_at j v l lj) e) (w_intersect_cb matchf pick fuel v j).
Proof. intros Nj w LL l e SO RS N Lf. unfold w_intersect_cb. rewrite (member_in matchf pick fresh w LL j _ e fuel SO (now_ok w LL LL0 j v l lj SO RS N Nj) Lf). cbn [obind]. destruct (memb (now_at j v l lj) e); reflexivity. Qed.
Lemma cb_difference fuel v j LL0 lj : nth_error LL0 j = Some lj -> cb_ok matchf pick fuel v LL0 (fun l e => negb (memb (now_at j v l lj) e)) (w_difference_cb matchf pick fuel v j).
Proof. intros Nj w LL l e SO RS N Lf. unfold w_difference_cb. rewrite (member_in matchf pick fresh w LL j _ e fuel SO (now_ok w LL LL0 j v l lj SO RS N Nj) Lf). cbn [obind]. destruct (memb (now_at j v l lj) e); reflexivity. Qed.

Lemma absorb_in want : forall L l e, mem (snd (absorb want L l)) e -> mem l e \/ mem L e.
Proof.
  induction L as [|x L IH]; intros l e; cbn [SptrSpec.absorb]; [auto|]. destruct (want l x); [destruct (memb l x); [auto|]|]; intros M; apply IH in M; destruct M as [M|M].
  - destruct M as (y & [<-|Iy] & Ey); [right; exists x; split; [now left|exact Ey]|left; now exists y].
  - right. destruct M as (y & Iy & Ey). exists y. split; [now right|exact Ey].
  - now left.
  - right. destruct M as (y & Iy & Ey). exists y. split; [now right|exact Ey].
Qed.
Lemma absorb_keeps want : forall L l e, mem l e -> mem (snd (absorb want L l)) e.
Proof.
  induction L as [|x L IH]; intros l e M; cbn [SptrSpec.absorb]; [exact M|]. destruct (want l x); [destruct (memb l x); [exact M|]|]; apply IH; [|exact M]. destruct M as (y & Iy & Ey). exists y. split; [now right|exact Ey].
Qed.
(** everything is added when nothing is there before *)
Lemma absorb_all : forall L l, distinct matchf L -> (forall e, mem L e -> ~ mem l e) -> absorb (fun _ _ => true) L l = (0, rev L ++ l).
Proof.
  induction L as [|x L IH]; intros l D N; cbn [SptrSpec.absorb]; [reflexivity|]. destruct D as [D1 D2]. replace (memb l x) with false; [|symmetry; apply memb_false; apply N; exists x; split; [now left|now apply eqv_refl]].
  rewrite IH; [cbn [rev]; now rewrite <- app_assoc|exact D2|]. intros e M (y & [<-|Iy] & Ey).
  - apply D1. destruct M as (z & Iz & Ez). exists z. split; [exact Iz|]. apply (eqv_trans matchf EQ _ e); [exact Ez|]. now rewrite (eqv_sym matchf EQ).
  - apply (N e); [destruct M as (z & Iz & Ez); exists z; split; [now right|exact Ez]|now exists y].
Qed.
(** nothing is added when everything is there before *)
Lemma absorb_none want L l : (forall e, mem L e -> mem l e) -> snd (absorb want L l) = l.
Proof. intros M. apply absorb_members. intros e Ie. apply memb_mem, M. exists e. split; [exact Ie|]. now apply eqv_refl. Qed.

Lemma set_distinct w LL i li : sound w LL -> nth_error LL i = Some li -> distinct matchf li.
Proof. intros SO N. destruct (set_of matchf w LL i li SO N) as (s & S & _ & _ & _ & _ & I_). apply I_. Qed.

(** C63, zt_set_union with any three sets, the same or not: exactly what is added to the target, in terms of some order of the members of the other two; all other sets stay as they were *)
Theorem C63_union : forall w LL u i j lu li lj fuel, sound w LL -> nth_error LL u = Some lu -> nth_error LL i = Some li -> nth_error LL j = Some lj -> (4 * length (cells (wheap w)) < fuel)%nat ->
  exists w' Li Lj l1 l2, w_union matchf pick fuel w u i j = Ok (0, w') /\ Permutation Li li /\ l1 = snd (absorb (fun _ _ => true) Li lu) /\ Permutation Lj (if (j =? u)%nat then l1 else lj) /\ l2 = snd (absorb (fun _ _ => true) Lj l1) /\ sound w' (upd LL u l2).
Proof.
  intros w LL u i j lu li lj fuel SO Nu Ni Nj Lf.
  destruct (walk_ok matchf pick fresh fuel u LL (fun _ _ => true) (union_cb matchf pick fuel u) (cb_union fuel u LL) i li w LL lu fuel EQ SO (fun k _ => eq_refl) Nu Ni) as (Li & r1 & w1 & l1 & P1 & E1 & A1 & SO1 & _ & _ & LC1); [lia|lia|].
  assert (N1 : nth_error (upd LL u l1) u = Some l1) by now apply (at_upd LL u lu). assert (Nj1 : nth_error (upd LL u l1) j = Some (if (j =? u)%nat then l1 else lj)). { rewrite upd_nth_error. destruct (Nat.eqb_spec j u) as [->|]; [|exact Nj]. assert (X : (u < length LL)%nat) by (apply nth_error_Some; congruence). apply Nat.ltb_lt in X. now rewrite X. }
  destruct (walk_ok matchf pick fresh fuel u (upd LL u l1) (fun _ _ => true) (union_cb matchf pick fuel u) (cb_union fuel u _) j _ w1 (upd LL u l1) l1 fuel EQ SO1 (fun k _ => eq_refl) N1 Nj1) as (Lj & r2 & w2 & l2 & P2 & E2 & A2 & SO2 & _ & _ & LC2); [lia|lia|].
  rewrite upd_upd in SO2. exists w2, Li, Lj, l1, l2. unfold w_union. rewrite E1. cbn [obind]. rewrite E2. cbn [obind]. rewrite A1, A2. auto 10.
Qed.
(** the union is the union when the argument sets are the target itself, each other, or have nothing in common *)
Theorem C63_union_aliased : forall w LL u i j lu li lj fuel, sound w LL -> nth_error LL u = Some lu -> nth_error LL i = Some li -> nth_error LL j = Some lj -> (4 * length (cells (wheap w)) < fuel)%nat ->
  (i = u \/ forall e, mem li e -> ~ mem lu e) -> (j = u \/ j = i \/ forall e, mem lj e -> ~ mem lu e /\ ~ mem li e) ->
  exists w' l, w_union matchf pick fuel w u i j = Ok (0, w') /\ sound w' (upd LL u l) /\ forall e, mem l e <-> mem lu e \/ mem li e \/ mem lj e.
Proof.
  intros w LL u i j lu li lj fuel SO Nu Ni Nj Lf Hi Hj. destruct (C63_union w LL u i j lu li lj fuel SO Nu Ni Nj Lf) as (w' & Li & Lj & l1 & l2 & E & P1 & E1 & P2 & E2 & SO'). exists w', l2. split; [exact E|]. split; [exact SO'|].
  pose proof (set_distinct w LL i li SO Ni) as Di. pose proof (set_distinct w LL j lj SO Nj) as Dj.
  assert (M1 : forall e, mem l1 e <-> mem lu e \/ mem li e).
  { destruct Hi as [->|Hi]. - assert (li = lu) by congruence. subst li. assert (X : l1 = lu). { rewrite E1. apply absorb_none. intros e. now apply (mem_perm matchf). } rewrite X. tauto.
    - assert (X : l1 = rev Li ++ lu). { rewrite E1, absorb_all; [reflexivity|now apply (distinct_perm matchf EQ li)|]. intros e M. apply Hi. now apply (mem_perm matchf li Li e P1). } intros e. rewrite X, mem_app. rewrite (mem_perm matchf li (rev Li) e); [tauto|]. apply (Permutation_trans (Permutation_sym (Permutation_rev Li))). exact P1. }
  assert (D : (j = u \/ j = i) \/ (j <> u /\ j <> i /\ forall e, mem lj e -> ~ mem lu e /\ ~ mem li e)). { destruct (Nat.eq_dec j u); [left; now left|]. destruct (Nat.eq_dec j i); [left; now right|]. right. split; [assumption|]. split; [assumption|]. destruct Hj as [?|[?|?]]; [contradiction|contradiction|assumption]. }
  destruct D as [D|(Nju & Nji & D)].
  - assert (X : forall e, mem lj e -> mem lu e \/ mem li e) by (destruct D; subst j; intros e M; [left; congruence|right; congruence]). assert (Y : l2 = l1). { rewrite E2. apply absorb_none. intros e M. apply (mem_perm matchf _ _ e P2) in M. destruct (j =? u)%nat; [exact M|]. apply M1. now apply X. } intros e. rewrite Y, M1. specialize (X e). tauto.
  - apply Nat.eqb_neq in Nju. rewrite Nju in P2. assert (X : l2 = rev Lj ++ l1). { rewrite E2, absorb_all; [reflexivity|now apply (distinct_perm matchf EQ lj)|]. intros e M. apply (mem_perm matchf _ _ e P2) in M. specialize (D e M). rewrite M1. tauto. } intros e. rewrite X, mem_app, M1. rewrite (mem_perm matchf lj (rev Lj) e); [tauto|]. apply (Permutation_trans (Permutation_sym (Permutation_rev Lj))). exact P2.
Qed.
(** zt_set_intersection and zt_set_difference with any three sets *)
Theorem C63_intersection : forall w LL v i j lv li lj fuel, sound w LL -> nth_error LL v = Some lv -> nth_error LL i = Some li -> nth_error LL j = Some lj -> (4 * length (cells (wheap w)) < fuel)%nat ->
  exists L r w' l, Permutation L li /\ w_intersection matchf pick fuel w v i j = Ok (r, w') /\ absorb (fun t e => memb (if (j =? v)%nat then t else lj) e) L lv = (r, l) /\ sound w' (upd LL v l) /\ (l = lv -> w' = w).
Proof.
  intros w LL v i j lv li lj fuel SO Nv Ni Nj Lf. destruct (walk_ok matchf pick fresh fuel v LL _ _ (cb_intersect fuel v j LL lj Nj) i li w LL lv fuel EQ SO (fun k _ => eq_refl) Nv Ni) as (L & r & w' & l & P & E & A & SO' & _ & ID & _); [lia|lia|]. exists L, r, w', l. auto.
Qed.
Theorem C63_difference : forall w LL v i j lv li lj fuel, sound w LL -> nth_error LL v = Some lv -> nth_error LL i = Some li -> nth_error LL j = Some lj -> (4 * length (cells (wheap w)) < fuel)%nat ->
  exists L r w' l, Permutation L li /\ w_difference matchf pick fuel w v i j = Ok (r, w') /\ absorb (fun t e => negb (memb (if (j =? v)%nat then t else lj) e)) L lv = (r, l) /\ sound w' (upd LL v l) /\ (l = lv -> w' = w).
Proof.
  intros w LL v i j lv li lj fuel SO Nv Ni Nj Lf. destruct (walk_ok matchf pick fresh fuel v LL _ _ (cb_difference fuel v j LL lj Nj) i li w LL lv fuel EQ SO (fun k _ => eq_refl) Nv Ni) as (L & r & w' & l & P & E & A & SO' & _ & ID & _); [lia|lia|]. exists L, r, w', l. auto.
Qed.
(** the intersection of a set with another, put into one of the two, is never computed: nothing at all changes *)
Theorem C63_intersection_in_place : forall w LL v i j lv li lj fuel, sound w LL -> nth_error LL v = Some lv -> nth_error LL i = Some li -> nth_error LL j = Some lj -> (4 * length (cells (wheap w)) < fuel)%nat ->
  v = i \/ v = j -> exists r, w_intersection matchf pick fuel w v i j = Ok (r, w).
Proof.
  intros w LL v i j lv li lj fuel SO Nv Ni Nj Lf H. destruct (C63_intersection w LL v i j lv li lj fuel SO Nv Ni Nj Lf) as (L & r & w' & l & P & E & A & _ & ID). exists r. rewrite E. f_equal. f_equal. apply ID. destruct H as [-> | ->].
  - assert (li = lv) by congruence. subst li. replace l with (snd (absorb (fun t e => memb (if (j =? i)%nat then t else lj) e) L lv)) by now rewrite A. apply absorb_none. intros e. now apply (mem_perm matchf).
  - rewrite Nat.eqb_refl in A. replace l with (snd (absorb (fun t e => memb t e) L lv)) by now rewrite A. clear. revert lv. induction L as [|x L IH]; intros lv; cbn [SptrSpec.absorb]; [reflexivity|]. destruct (memb lv x) eqn:M; [reflexivity|apply IH].
Qed.
(** so with the difference of a set and another put into the first; put into the second, it becomes the union *)
Theorem C63_difference_in_place : forall w LL v i j lv li lj fuel, sound w LL -> nth_error LL v = Some lv -> nth_error LL i = Some li -> nth_error LL j = Some lj -> (4 * length (cells (wheap w)) < fuel)%nat ->
  v = i \/ i = j -> exists r, w_difference matchf pick fuel w v i j = Ok (r, w).
Proof.
  intros w LL v i j lv li lj fuel SO Nv Ni Nj Lf H. destruct (C63_difference w LL v i j lv li lj fuel SO Nv Ni Nj Lf) as (L & r & w' & l & P & E & A & _ & ID). exists r. rewrite E. f_equal. f_equal. apply ID. replace l with (snd (absorb (fun t e => negb (memb (if (j =? v)%nat then t else lj) e)) L lv)) by now rewrite A.
  destruct (Nat.eq_dec v i) as [->|NE]; [assert (li = lv) by congruence; subst li; apply absorb_none; intros e; now apply (mem_perm matchf)|]. destruct H as [? | ->]; [contradiction|]. assert (li = lj) by congruence. subst li. replace (j =? v)%nat with false by (symmetry; apply Nat.eqb_neq; congruence).
  assert (G : forall L0, (forall x, In x L0 -> memb lj x = true) -> snd (absorb (fun _ e => negb (memb lj e)) L0 lv) = lv). { induction L0 as [|x L0 IH]; intros F; cbn [SptrSpec.absorb]; [reflexivity|]. rewrite (F x (or_introl eq_refl)). cbn [negb]. apply IH. intros y Iy. apply F. now right. }
  apply G. intros x Ix. apply memb_mem. exists x. split; [now apply (Permutation_in _ P)|]. now apply eqv_refl.
Qed.
Theorem C63_difference_into_second : forall w LL v i lv li fuel, sound w LL -> nth_error LL v = Some lv -> nth_error LL i = Some li -> v <> i -> (4 * length (cells (wheap w)) < fuel)%nat ->
  exists w' l, w_difference matchf pick fuel w v i v = Ok (0, w') /\ sound w' (upd LL v l) /\ forall e, mem l e <-> mem lv e \/ mem li e.
Proof.
  intros w LL v i lv li fuel SO Nv Ni NE Lf. destruct (C63_difference w LL v i v lv li lv fuel SO Nv Ni Nv Lf) as (L & r & w' & l & P & E & A & SO' & _). rewrite Nat.eqb_refl in A.
  assert (G : forall L0 l0, exists l1, absorb (fun t e => negb (memb t e)) L0 l0 = (0, l1) /\ forall e, mem l1 e <-> mem l0 e \/ mem L0 e).
  { induction L0 as [|x L0 IH]; intros l0; cbn [SptrSpec.absorb]; [exists l0; split; [reflexivity|]; intros e; split; [auto|]; intros [M|(? & [] & _)]; exact M|]. destruct (memb l0 x) eqn:M; cbn [negb].
    - destruct (IH l0) as (l1 & E1 & H1). exists l1. split; [exact E1|]. intros e. rewrite H1. split; (intros [Q|Q]; [now left|]).
      + right. destruct Q as (y & Iy & Ey). exists y. split; [now right|exact Ey].
      + destruct Q as (y & [<-|Iy] & Ey); [|right; now exists y]. left. apply (mem_cong matchf EQ l0 x e Ey). now apply memb_mem.
    - destruct (IH (x :: l0)) as (l1 & E1 & H1). exists l1. split; [exact E1|]. intros e. rewrite H1. split; (intros [Q|Q]).
      + destruct Q as (y & [<-|Iy] & Ey); [right; exists x; split; [now left|exact Ey]|left; now exists y].
      + right. destruct Q as (y & Iy & Ey). exists y. split; [now right|exact Ey].
      + left. destruct Q as (y & Iy & Ey). exists y. split; [now right|exact Ey].
      + destruct Q as (y & [<-|Iy] & Ey); [left; exists x; split; [now left|exact Ey]|right; now exists y]. }
  destruct (G L lv) as (l1 & E1 & H1). rewrite E1 in A. assert (r = 0 /\ l1 = l) as (-> & ->) by (split; congruence). exists w', l. split; [exact E|]. split; [exact SO'|]. intros e. rewrite H1. rewrite (mem_perm matchf li L e P). tauto.
Qed.
(** zt_set_is_subset and zt_set_is_equal, any two sets *)
Lemma subset_walk w LL i j li lj fuel : sound w LL -> nth_error LL i = Some li -> nth_error LL j = Some lj -> (4 * length (cells (wheap w)) < fuel)%nat ->
  exists r, walk (w_subset_cb matchf fuel j) fuel w i = Ok (r, w) /\ (r = 0 <-> forall e, mem li e -> mem lj e).
Proof.
  intros SO Ni Nj Lf. destruct (set_of matchf w LL i li SO Ni) as (s & S & G & Ns & (L & R & ET) & _ & I_). unfold walk. rewrite G. cbn [obind].
  assert (PM : Permutation (map (fun a => ndatum (snd a)) (concat L)) li). { destruct I_ as (H & _). pose proof (all_nodes_perm elt elt elt_hash (stbl S) (dbl li) H) as Q. apply (Permutation_map snd) in Q. rewrite map_map in Q. unfold dbl in Q. rewrite map_map, map_id in Q. rewrite ET in Q. unfold all_nodes, tab in Q. cbn [tbuckets] in Q. rewrite <- concat_map, map_map in Q. exact Q. }
  assert (CB : forall e, w_subset_cb matchf fuel j w e = Ok (if memb lj e then 0 else 1, w)). { intros e. unfold w_subset_cb. rewrite (member_in matchf pick fresh w LL j lj e fuel SO Nj); [reflexivity|lia]. }
  assert (CH : forall c p f, chain (wheap w) p c -> (length c < f)%nat -> walk_chain (w_subset_cb matchf fuel j) f w p = Ok (if forallb (memb lj) (map (fun a => ndatum (snd a)) c) then 0 else 1, w)).
  { induction c as [|[x n] c IH]; intros p [|f] C Lc; cbn [length] in Lc; try lia; cbn [chain] in C; [subst p; reflexivity|]. destruct C as (-> & q & Lk & C). cbn [walk_chain map forallb snd]. unfold hget. rewrite Lk. cbn [obind cell hd hn]. rewrite CB. cbn [obind]. destruct (memb lj (ndatum n)); cbn [andb]; [change (0 =? 0) with true; cbv iota; apply IH; [exact C|lia]|reflexivity]. }
  assert (LP : forall bs b, bs = seq b (length L - b) -> (b <= length L)%nat -> walk_loop (w_subset_cb matchf fuel j) fuel w i bs = Ok (if forallb (memb lj) (map (fun a => ndatum (snd a)) (concat (skipn b L))) then 0 else 1, w)).
  { induction bs as [|b' bs IH]; intros b Eb Hb.
    - assert (length L - b = 0)%nat by (destruct (length L - b)%nat; [reflexivity|discriminate]). rewrite skipn_all2 by lia. reflexivity.
    - destruct (length L - b)%nat as [|m] eqn:Em; [discriminate|]. cbn [seq] in Eb. injection Eb as -> ->. assert (Hi : (b < length L)%nat) by lia. apply nth_error_Some in Hi. destruct (nth_error L b) as [c|] eqn:Nc; [|congruence]. destruct (bucket_of elt elt pick fresh (wheap w) (ptbl s) L b c R Nc) as (p & Hp & C). pose proof (rep_len elt elt _ _ L b p c R Nc C) as Lc.
      assert (SK : skipn b L = c :: skipn (Datatypes.S b) L). { clear - Nc. revert b Nc. induction L as [|a L IH]; intros [|k] N; cbn [nth_error] in N; try discriminate; [cbn [skipn]; congruence|]. cbn [skipn]. rewrite (IH k N). reflexivity. }
      rewrite SK. cbn [concat walk_loop]. unfold wget. rewrite Ns. cbn [obind]. unfold head_at. rewrite Hp. cbn [obind]. rewrite (CH c p fuel C) by lia. cbn [obind]. rewrite map_app, forallb_app. destruct (forallb (memb lj) (map (fun a => ndatum (snd a)) c)); cbn [andb]; [change (0 =? 0) with true; cbv iota; apply IH; [f_equal; lia|lia]|reflexivity]. }
  rewrite (rep_same_len elt elt _ _ L R), (LP (seq 0 (length L)) 0%nat); [|f_equal; lia|lia]. cbn [skipn]. eexists. split; [reflexivity|]. destruct (forallb _ _) eqn:F.
  - split; [intros _|auto]. intros e M. rewrite forallb_forall in F. apply (mem_perm matchf _ _ e PM) in M. destruct M as (y & Iy & Ey). apply (mem_cong matchf EQ lj y e Ey). apply memb_mem. now apply F.
  - split; [discriminate|]. intros H. exfalso. assert (X : forallb (memb lj) (map (fun a => ndatum (snd a)) (concat L)) = true). { apply forallb_forall. intros e Ie. apply memb_mem, H. exists e. split; [now apply (Permutation_in _ PM)|now apply eqv_refl]. } congruence.
Qed.
Lemma lens w LL i li : sound w LL -> nth_error LL i = Some li -> exists s, wget w i = Ok s /\ plen s = Z.of_nat (length li).
Proof. intros SO N. destruct (set_of matchf w LL i li SO N) as (s & S & G & _ & _ & P & I_). exists s. split; [exact G|]. rewrite P. apply I_. Qed.
Lemma subset_length l1 l2 : distinct matchf l1 -> (forall e, mem l1 e -> mem l2 e) -> (length l1 <= length l2)%nat.
Proof.
  revert l2. induction l1 as [|x l1 IH]; intros l2 D H; cbn [length]; [lia|]. destruct D as [D1 D2]. destruct (H x) as (y & Iy & Ey); [exists x; split; [now left|now apply eqv_refl]|]. apply in_split in Iy. destruct Iy as (A & B & ->).
  specialize (IH (A ++ B) D2). rewrite app_length in *. cbn [length]. assert (X : (length l1 <= length A + length B)%nat); [|lia]. apply IH. intros e M. destruct (H e) as (z & Iz & Ez); [destruct M as (z & Iz & Ez); exists z; split; [now right|exact Ez]|].
  apply in_app_or in Iz. destruct Iz as [Iz|[<-|Iz]]; [exists z; split; [apply in_or_app; now left|exact Ez]| |exists z; split; [apply in_or_app; now right|exact Ez]]. exfalso. apply D1. apply (mem_cong matchf EQ l1 e x); [|exact M]. apply (eqv_trans matchf EQ _ y); [|exact Ey]. now rewrite (eqv_sym matchf EQ).
Qed.
Theorem C63_is_subset : forall w LL i j li lj fuel, sound w LL -> nth_error LL i = Some li -> nth_error LL j = Some lj -> (4 * length (cells (wheap w)) < fuel)%nat ->
  exists b, w_is_subset matchf fuel w i j = Ok b /\ (b = true <-> forall e, mem li e -> mem lj e).
Proof.
  intros w LL i j li lj fuel SO Ni Nj Lf. destruct (lens w LL i li SO Ni) as (s & G & P). destruct (lens w LL j lj SO Nj) as (s' & G' & P'). unfold w_is_subset. rewrite G, G'. cbn [obind]. rewrite P, P'. destruct (Z.gtb_spec (Z.of_nat (length li)) (Z.of_nat (length lj))).
  - exists false. split; [reflexivity|]. split; [discriminate|]. intros X. apply (subset_length li lj (set_distinct w LL i li SO Ni)) in X. lia.
  - destruct (subset_walk w LL i j li lj fuel SO Ni Nj Lf) as (r & E & H1). rewrite E. cbn [obind]. eexists. split; [reflexivity|]. rewrite Z.eqb_eq. exact H1.
Qed.
Theorem C63_is_equal : forall w LL i j li lj fuel, sound w LL -> nth_error LL i = Some li -> nth_error LL j = Some lj -> (4 * length (cells (wheap w)) < fuel)%nat ->
  exists b, w_is_equal matchf fuel w i j = Ok b /\ (b = true <-> forall e, mem li e <-> mem lj e).
Proof.
  intros w LL i j li lj fuel SO Ni Nj Lf. destruct (lens w LL i li SO Ni) as (s & G & P). destruct (lens w LL j lj SO Nj) as (s' & G' & P'). pose proof (set_distinct w LL i li SO Ni) as Di. pose proof (set_distinct w LL j lj SO Nj) as Dj. unfold w_is_equal. rewrite G, G'. cbn [obind]. rewrite P, P'. destruct (Z.eqb_spec (Z.of_nat (length li)) (Z.of_nat (length lj))) as [El|El]; cbn [negb].
  - destruct (subset_walk w LL i j li lj fuel SO Ni Nj Lf) as (r & E & H1). rewrite E. cbn [obind]. eexists. split; [reflexivity|]. rewrite Z.eqb_eq, H1. split; [|intros X e; apply X].
    intros X e. split; [apply X|]. intros M. destruct (memb li e) eqn:Mb; [now apply memb_mem|]. exfalso. apply memb_false in Mb. assert (Y : (length (e :: li) <= length lj)%nat); [|cbn [length] in Y; lia]. apply subset_length; [now split|]. intros x (y & [<-|Iy] & Ey); [now apply (mem_cong matchf EQ lj e x Ey)|]. apply X. now exists y.
  - exists false. split; [reflexivity|]. split; [discriminate|]. intros X. exfalso. assert (length li <= length lj)%nat by (apply subset_length; [exact Di|intros e; apply X]). assert (length lj <= length li)%nat by (apply subset_length; [exact Dj|intros e; apply X]). lia.
Qed.
(** any program on any number of sets, with any choice of sets as arguments: no undefined behaviour, it ends, and the sets are proper sets with correct counters all along *)
Lemma init_in w LL : sound w LL -> sound (w_init w) (LL ++ [[]]).
Proof.
  intros (ND & F). split; [exact ND|]. cbn [w_init wheap wsets]. apply Forall2_app; [exact F|]. constructor; [|constructor]. exists set_init. cbn [ptbl plen]. split; [|split; [reflexivity|apply init_set]]. unfold set_init. cbn [stbl].
  exists (repeat [] (Z.to_nat (num_buckets false 128))). split; [|unfold tab, pinit, table_init; cbn [pbits pdup]; f_equal].
  unfold pinit. constructor; cbn [pbuckets]; [clear; induction (Z.to_nat _); constructor; auto; reflexivity| |exact ND]. replace (concat (repeat (@nil (nat * node elt elt)) (Z.to_nat (num_buckets false 128)))) with (@nil (nat * node elt elt)); [constructor|]. clear. induction (Z.to_nat _); cbn [repeat concat app]; auto.
Qed.
Lemma step_in w LL o : sound w LL -> named (length LL) o -> exists r w' LL', sstep matchf pick (S (4 * length (cells (wheap w)))) w o = Ok (r, w') /\ sound w' LL' /\ length LL' = (match o with SNew => S (length LL) | _ => length LL end).
Proof.
  intros SO NM. assert (AT : forall i, (i < length LL)%nat -> exists l, nth_error LL i = Some l). { intros i Hi. apply nth_error_Some in Hi. destruct (nth_error LL i) as [l|]; [now exists l|congruence]. }
  assert (Lf : (4 * length (cells (wheap w)) < S (4 * length (cells (wheap w))))%nat) by lia. destruct o as [|i e|i e|u i j|v i j|v i j|i j|i j]; cbn [named] in NM; unfold sstep.
  - exists 0, (w_init w), (LL ++ [[]]). split; [reflexivity|]. split; [now apply init_in|]. rewrite app_length. cbn [length]. lia.
  - destruct (AT i NM) as (l & N). assert (Lf' : (length (cells (wheap w)) < S (4 * length (cells (wheap w))))%nat) by lia. pose proof (insert_in matchf pick fresh w LL i l e _ SO N Lf') as X. destruct (memb l e); [exists 1, w, LL; auto|]. destruct X as (w' & E & SO' & _). exists 0, w', (upd LL i (e :: l)). split; [exact E|]. split; [exact SO'|apply upd_length].
  - destruct (AT i NM) as (l & N). rewrite (member_in matchf pick fresh w LL i l e (S (4 * length (cells (wheap w)))) SO N) by lia. cbn [obind]. eexists _, w, LL. auto.
  - destruct NM as (H1 & H2 & H3). destruct (AT _ H1) as (l1 & N1). destruct (AT _ H2) as (l2 & N2). destruct (AT _ H3) as (l3 & N3). destruct (C63_union w LL u i j l1 l2 l3 _ SO N1 N2 N3 Lf) as (w' & Li & Lj & m1 & m2 & E & _ & _ & _ & _ & SO'). exists 0, w', (upd LL u m2). split; [exact E|]. split; [exact SO'|apply upd_length].
  - destruct NM as (H1 & H2 & H3). destruct (AT _ H1) as (l1 & N1). destruct (AT _ H2) as (l2 & N2). destruct (AT _ H3) as (l3 & N3). destruct (C63_intersection w LL v i j l1 l2 l3 _ SO N1 N2 N3 Lf) as (L & r & w' & m & _ & E & _ & SO' & _). exists r, w', (upd LL v m). split; [exact E|]. split; [exact SO'|apply upd_length].
  - destruct NM as (H1 & H2 & H3). destruct (AT _ H1) as (l1 & N1). destruct (AT _ H2) as (l2 & N2). destruct (AT _ H3) as (l3 & N3). destruct (C63_difference w LL v i j l1 l2 l3 _ SO N1 N2 N3 Lf) as (L & r & w' & m & _ & E & _ & SO' & _). exists r, w', (upd LL v m). split; [exact E|]. split; [exact SO'|apply upd_length].
  - destruct NM as (H1 & H2). destruct (AT _ H1) as (l1 & N1). destruct (AT _ H2) as (l2 & N2). destruct (C63_is_subset w LL i j l1 l2 _ SO N1 N2 Lf) as (b & E & _). rewrite E. cbn [obind]. eexists _, w, LL. auto.
  - destruct NM as (H1 & H2). destruct (AT _ H1) as (l1 & N1). destruct (AT _ H2) as (l2 & N2). destruct (C63_is_equal w LL i j l1 l2 _ SO N1 N2 Lf) as (b & E & _). rewrite E. cbn [obind]. eexists _, w, LL. auto.
Qed.
Theorem C63_history : forall os, all_named 0 os -> exists l w LL, srun matchf pick (mkw (mkheap [] 0) []) os = Ok (l, w) /\ length l = length os /\ sound w LL.
Proof.
  assert (G : forall os w LL, sound w LL -> all_named (length LL) os -> exists l w' LL', srun matchf pick w os = Ok (l, w') /\ length l = length os /\ sound w' LL').
  { induction os as [|o os IH]; intros w LL SO NM; cbn [srun]; [exists [], w, LL; auto|]. destruct NM as (N1 & N2). destruct (step_in w LL o SO N1) as (r & w1 & LL1 & E1 & SO1 & Ln). rewrite E1. cbn [obind]. rewrite <- Ln in N2. destruct (IH w1 LL1 SO1 N2) as (l & w2 & LL2 & E2 & L2 & SO2). rewrite E2. cbn [obind]. exists (r :: l), w2, LL2. cbn [length]. auto. }
  intros os NM. apply (G os (mkw (mkheap [] 0) []) []); [|exact NM]. split; constructor.
Qed.
(** zt_set_destroy calls the destroy function once for every member, with what was inserted *)
Theorem C63_destroy : forall w LL i li fuel d, sound w LL -> nth_error LL i = Some li -> (length (cells (wheap w)) < fuel)%nat ->
  exists l, w_destroy fuel d w i = Ok l /\ Permutation l (if d then map fst li else []).
Proof.
  intros w LL i li fuel d SO Ni Lf. destruct (set_of matchf w LL i li SO Ni) as (s & S & G & Ns & (L & R & ET) & _ & I_). unfold w_destroy. rewrite G. cbn [obind].
  assert (PM : Permutation (map (fun a => ndatum (snd a)) (concat L)) li). { destruct I_ as (H & _). pose proof (all_nodes_perm elt elt elt_hash (stbl S) (dbl li) H) as Q. apply (Permutation_map snd) in Q. rewrite map_map in Q. unfold dbl in Q. rewrite map_map, map_id in Q. rewrite ET in Q. unfold all_nodes, tab in Q. cbn [tbuckets] in Q. rewrite <- concat_map, map_map in Q. exact Q. }
  assert (LC : (length (concat L) <= length (cells (wheap w)))%nat). { rewrite <- (map_length fst (concat L)), <- (map_length fst (cells (wheap w))). apply NoDup_incl_length; [exact (r_apart _ _ _ R)|]. apply (chains_in elt elt _ _ _ (r_chains _ _ _ R)). }
  assert (CH : forall c p f, chain (wheap w) p c -> (length c < f)%nat -> data_chain f (wheap w) p = Ok (map (fun a => ndatum (snd a)) c)).
  { induction c as [|[x n] c IH]; intros p [|f] C Lc; cbn [length] in Lc; try lia; cbn [chain] in C; [subst p; reflexivity|]. destruct C as (-> & q & Lk & C). cbn [data_chain map snd]. unfold hget. rewrite Lk. cbn [obind cell hd hn]. rewrite (IH q f C) by lia. reflexivity. }
  assert (LP : data_loop fuel (wheap w) (pbuckets (ptbl s)) = Ok (map (fun a => ndatum (snd a)) (concat L))).
  { pose proof (r_chains _ _ _ R) as F. clear - F CH LC Lf. revert F LC. generalize (pbuckets (ptbl s)). induction L as [|c L IH]; intros bs F LC; inversion F; subst; cbn [data_loop]; [reflexivity|]. cbn [concat] in LC |- *. rewrite app_length in LC. rewrite (CH c) by (auto; lia). cbn [obind]. rewrite IH by (auto; lia). cbn [obind]. now rewrite map_app. }
  rewrite LP. cbn [obind]. eexists. split; [reflexivity|]. destruct d; [|constructor]. now apply Permutation_map.
Qed.
End P.

(** What goes wrong.  Elements are integers (4 bytes), as in C21's examples *)
Definition next_addr (_ : nat) (l : list nat) : nat := S (list_max l).
Lemma next_addr_fresh : forall c l, ~ In (next_addr c l) l.
Proof. intros c l I. unfold next_addr in I. assert (X := proj1 (list_max_le l (list_max l)) (le_n _)). rewrite Forall_forall in X. specialize (X _ I). lia. Qed.
Definition num (z : Z) : elt := (z, 4%nat).
Definition runs (os : list sop) : outcome (list Z) := ' (l, _) <- srun int4_match next_addr (mkw (mkheap [] 0) []) os ;; Ok l.
Definition two : list sop := [SNew; SNew; SInsert 0 (num 1); SInsert 0 (num 3); SInsert 1 (num 2); SInsert 1 (num 3)].
Example two_runs : exists l w LL, srun int4_match next_addr (mkw (mkheap [] 0) []) (two ++ [SUnion 0 0 0; SDifference 1 0 0; SSubset 0 0; SEqual 0 1]) = Ok (l, w) /\ SptrSpec.sound int4_match w LL /\ l = [0; 0; 0; 0; 0; 0; 0; 0; 1; 0].
Proof.
  assert (NM : all_named 0 (two ++ [SUnion 0 0 0; SDifference 1 0 0; SSubset 0 0; SEqual 0 1])) by (lazy [two app all_named named]; repeat split; lia).
  destruct (C63_history int4_match next_addr int4_match_equiv next_addr_fresh _ NM) as (l & w & LL & E & _ & SO). exists l, w, LL. split; [exact E|]. split; [exact SO|].
  assert (X : runs (two ++ [SUnion 0 0 0; SDifference 1 0 0; SSubset 0 0; SEqual 0 1]) = Ok [0; 0; 0; 0; 0; 0; 0; 0; 1; 0]) by (vm_compute; reflexivity). unfold runs in X. rewrite E in X. cbn [obind] in X. congruence.
Qed.
(** C63 refuted: {1,3} united with {2,3} in place has not got 2 *)
Theorem C63_union_in_place_refuted : exists os, runs (two ++ os) = Ok [0; 0; 0; 0; 0; 0; 0; 0] /\ os = [SUnion 0 0 1; SMember 0 (num 2)].
Proof. exists [SUnion 0 0 1; SMember 0 (num 2)]. split; [|reflexivity]. vm_compute. reflexivity. Qed.
(** C63 refuted: {1,3} intersected with {2,3} in place still has 1 *)
Theorem C63_intersection_in_place_refuted : exists os, runs (two ++ os) = Ok [0; 0; 0; 0; 0; 0; 1; 1] /\ os = [SIntersection 0 0 1; SMember 0 (num 1)].
Proof. exists [SIntersection 0 0 1; SMember 0 (num 1)]. split; [|reflexivity]. vm_compute. reflexivity. Qed.
(** C63 refuted: {1,3} minus {2,3} in place still has 3; {2,3} minus {1,3} into the second still has 1 *)
Theorem C63_difference_in_place_refuted : exists os os', runs (two ++ os) = Ok [0; 0; 0; 0; 0; 0; 1; 1] /\ os = [SDifference 0 0 1; SMember 0 (num 3)] /\ runs (two ++ os') = Ok [0; 0; 0; 0; 0; 0; 0; 1] /\ os' = [SDifference 0 1 0; SMember 0 (num 1)].
Proof. exists [SDifference 0 0 1; SMember 0 (num 3)], [SDifference 0 1 0; SMember 0 (num 1)]. split; [|split; [reflexivity|split; [|reflexivity]]]; vm_compute; reflexivity. Qed.
(** C63 refuted: an element that has become a member of a second set by zt_set_union is given to the destroy function when the one and when the other set is destroyed *)
Theorem C63_destroyed_twice_refuted : exists w, srun int4_match next_addr (mkw (mkheap [] 0) []) [SNew; SNew; SInsert 0 (num 7); SUnion 1 0 0] = Ok ([0; 0; 0; 0], w) /\ w_destroy 10 true w 0 = Ok [7] /\ w_destroy 10 true w 1 = Ok [7].
Proof. eexists. split; [vm_compute; reflexivity|]. split; vm_compute; reflexivity. Qed.

Print Assumptions C63_union. Print Assumptions C63_union_aliased. Print Assumptions C63_intersection. Print Assumptions C63_difference. Print Assumptions C63_intersection_in_place. Print Assumptions C63_difference_in_place. Print Assumptions C63_difference_into_second.
Print Assumptions C63_is_subset. Print Assumptions C63_is_equal. Print Assumptions C63_history. Print Assumptions C63_destroy.
Print Assumptions C63_union_in_place_refuted. Print Assumptions C63_intersection_in_place_refuted. Print Assumptions C63_difference_in_place_refuted. Print Assumptions C63_destroyed_twice_refuted.
