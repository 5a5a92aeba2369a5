(** Programs on pointer arrays in memory follow the programs on lists of member numbers. *)
From Coq Require Import Permutation.
From Verif Require Import Prelude Perm HeapModel PtrArrayModel PtrArrayProofs PtrDel PmemModel PmemSpec PmemProofs.
Local Open Scope Z_scope.

(** members *)
Fixpoint mcells (ma : list nat) (vm : list (option Z)) : list (nat * pcell) :=
  match ma, vm with p :: ma, o :: vm => match o with Some t => (p, PMem t) :: mcells ma vm | None => mcells ma vm end | _, _ => [] end.
Definition addr (ma : list nat) (k : nat) : nat := nth k ma 0%nat.
Definition ptr (ma : list nat) (k : nat) : Z := Z.of_nat (addr ma k).
Definition alive (vm : list (option Z)) (k : nat) : Prop := exists t, nth_error vm k = Some (Some t).
Lemma mcells_in ma vm k t : length ma = length vm -> nth_error vm k = Some (Some t) -> In (addr ma k, PMem t) (mcells ma vm).
Proof.
  unfold addr. revert vm k. induction ma as [|p ma IH]; intros [|o vm] k L E; try (destruct k; discriminate); try discriminate. cbn [mcells]. destruct k as [|k]; cbn [nth_error nth] in *.
  - assert (o = Some t) by congruence. subst. now left.
  - assert (In (nth k ma 0%nat, PMem t) (mcells ma vm)) by (apply IH; [cbn [length] in L; lia|exact E]). destruct o; [now right|assumption].
Qed.
Lemma mcells_kill ma vm k t : length ma = length vm -> nth_error vm k = Some (Some t) -> Permutation (mcells ma vm) ((addr ma k, PMem t) :: mcells ma (upd vm k None)).
Proof.
  unfold addr. revert vm k. induction ma as [|p ma IH]; intros [|o vm] k L E; try (destruct k; discriminate); try discriminate. cbn [mcells]. destruct k as [|k]; cbn [nth_error nth upd] in *.
  - assert (o = Some t) by congruence. subst. reflexivity.
  - cbn [length] in L. specialize (IH vm k ltac:(lia) E). destruct o; cbn [mcells]; rewrite IH; perm.
Qed.
Lemma mcells_app ma vm p t : length ma = length vm -> mcells (ma ++ [p]) (vm ++ [Some t]) = mcells ma vm ++ [(p, PMem t)].
Proof. revert vm. induction ma as [|q ma IH]; intros [|o vm] L; try discriminate; [reflexivity|]. cbn [app mcells length] in *. rewrite IH by lia. destruct o; reflexivity. Qed.
Lemma alive_upd vm k j : alive vm j -> j <> k -> alive (upd vm k None) j.
Proof. intros (t & E) N. exists t. rewrite upd_nth_error. assert (X : Nat.eqb j k = false) by (now apply Nat.eqb_neq). now rewrite X. Qed.
Lemma addr_inj ma vm : length ma = length vm -> NoDup (map fst (mcells ma vm)) -> forall j k, alive vm j -> alive vm k -> addr ma j = addr ma k -> j = k.
Proof.
  intros L ND j k (t & Ej) (u & Ek) E. destruct (Nat.eq_dec j k) as [|N]; [assumption|exfalso]. pose proof (mcells_kill ma vm k u L Ek) as P. apply (Permutation_NoDup (Permutation_map fst P)) in ND. cbn [map fst] in ND. apply NoDup_cons_iff in ND. destruct ND as [ND _]. apply ND. destruct (alive_upd vm k j) as (t' & E'); [now exists t|exact N|]. rewrite <- E. apply (in_map fst _ (addr ma j, PMem t')). apply mcells_in; [now rewrite upd_length|exact E'].
Qed.
Lemma kill_len l vm : length (kill vm l) = length vm.
Proof. unfold kill. revert vm. induction l as [|k l IH]; intros vm; cbn [fold_left]; [reflexivity|]. now rewrite IH, upd_length. Qed.
Lemma kill_alive l vm j : alive vm j -> ~ In j l -> alive (kill vm l) j.
Proof. unfold kill. revert vm. induction l as [|k l IH]; intros vm A N; cbn [fold_left]; [exact A|]. apply IH; [apply alive_upd; [exact A|intros ->; apply N; now left]|intros I; apply N; now right]. Qed.
Lemma mcells_kills ma : forall l vm, length ma = length vm -> NoDup l -> Forall (alive vm) l -> exists qs, Permutation (mcells ma vm) (qs ++ mcells ma (kill vm l)) /\ map fst qs = map (addr ma) l.
Proof.
  induction l as [|k l IH]; intros vm L ND F; [exists []; split; reflexivity|]. inversion F as [|? ? (t & Ek) F']; subst. inversion ND as [|? ? N1 N2]; subst. destruct (IH (upd vm k None)) as (qs & P & E); [now rewrite upd_length|exact N2| |].
  - rewrite Forall_forall in *. intros j J. apply alive_upd; [now apply F'|intros ->; contradiction].
  - exists ((addr ma k, PMem t) :: qs). split; [|cbn [map fst]; congruence]. rewrite (mcells_kill ma vm k t L Ek), P. reflexivity.
Qed.

(** sweeping numbers is sweeping pointers *)
Lemma sweep_in : forall n k l l' c, sweep n k l = (l', c) -> incl l' l.
Proof.
  induction n as [|n IH]; intros k l l' c E; cbn [sweep] in E; [assert (l' = l) by congruence; subst; now intros z|]. destruct l as [|x r]; [assert (l' = []) by congruence; subst; now intros z|]. destruct (Nat.eqb x k).
  - destruct r as [|y r]; [assert (l' = []) by congruence; subst; now intros z|]. destruct (exists_last (l := y :: r)) as (b & z & Eb); [discriminate|]. rewrite Eb, removelast_last, last_last in E. destruct (sweep n k b) as [r' c'] eqn:Es. assert (l' = z :: r') by congruence. subst l'. rewrite Eb. intros w [<-|I]; right; apply in_or_app; [right; now left|left; now apply (IH _ _ _ _ Es)].
  - destruct (sweep n k r) as [r' c'] eqn:Es. assert (l' = x :: r') by congruence. subst l'. intros w [<-|I]; [now left|right; now apply (IH _ _ _ _ Es)].
Qed.
Lemma sweep_swept (f : nat -> Z) : forall n k l l' c, (length l <= n)%nat -> (forall j, In j l -> f j = f k -> j = k) -> sweep n k l = (l', c) -> swept (f k) (map f l) (map f l') c.
Proof.
  induction n as [|n IH]; intros k l l' c Le Inj E; cbn [sweep] in E.
  - destruct l; [|cbn [length] in Le; lia]. assert (l' = [] /\ c = 0%nat) as [-> ->] by (split; congruence). constructor.
  - destruct l as [|x r]; [assert (l' = [] /\ c = 0%nat) as [-> ->] by (split; congruence); constructor|]. cbn [length] in Le. destruct (Nat.eqb_spec x k) as [->|Nx].
    + destruct r as [|y r]; [assert (l' = [] /\ c = 1%nat) as [-> ->] by (split; congruence); constructor|]. destruct (exists_last (l := y :: r)) as (b & z & Eb); [discriminate|]. rewrite Eb, removelast_last, last_last in E. rewrite Eb in *. rewrite app_length in Le. cbn [length] in Le. destruct (sweep n k b) as [r' c'] eqn:Es. assert (l' = z :: r' /\ c = S c') as [-> ->] by (split; congruence). cbn [map]. rewrite map_app. cbn [map]. constructor. apply (IH k b r' c'); [lia| |exact Es]. intros j J. apply Inj. right. apply in_or_app. now left.
    + destruct (sweep n k r) as [r' c'] eqn:Es. assert (l' = x :: r' /\ c = c') as [-> ->] by (split; congruence). cbn [map]. constructor; [intros X; apply Nx; apply Inj; [now left|exact X]|]. apply (IH k r r' c'); [lia| |exact Es]. intros j J. apply Inj. now right.
Qed.
Lemma stored_false arrs k : stored arrs k = false -> forall i f l, nth_error arrs i = Some (Some (f, l)) -> ~ In k l.
Proof.
  unfold stored. intros E i f l En I. rewrite <- Bool.not_true_iff_false in E. apply E. apply existsb_exists. exists (Some (f, l)). split; [now apply (nth_error_In _ i)|]. apply existsb_exists. exists k. split; [exact I|apply Nat.eqb_refl].
Qed.
Lemma distinct_nodup l : distinct l = true -> NoDup l.
Proof.
  unfold distinct. intros E. apply Nat.eqb_eq in E. apply (NoDup_incl_NoDup (NoDup_nodup Nat.eq_dec l)); [lia|]. intros x I. now apply nodup_In in I.
Qed.

(** lists of options side by side *)
Section F2.
Context {B C : Type} (R : B -> C -> Prop).
Lemma F2_nth_r : forall l m i y, Forall2 R l m -> nth_error m i = Some y -> exists x, nth_error l i = Some x /\ R x y.
Proof. intros l m i y F. revert i. induction F as [|a b l m Hab F IH]; intros [|i] E; cbn [nth_error] in *; try discriminate; [exists a; split; [reflexivity|congruence]|now apply IH]. Qed.
Lemma F2_upd : forall l m i x y, Forall2 R l m -> R x y -> Forall2 R (upd l i x) (upd m i y).
Proof. intros l m i x y F. revert i. induction F as [|a b l m Hab F IH]; intros [|i] H; cbn [upd]; constructor; auto. Qed.
Lemma F2_snoc : forall l m x y, Forall2 R l m -> R x y -> Forall2 R (l ++ [x]) (m ++ [y]).
Proof. intros l m x y F H. induction F; cbn [app]; auto. Qed.
Lemma F2_len : forall l m, Forall2 R l m -> length l = length m.
Proof. induction 1; cbn [length]; congruence. Qed.
End F2.
Lemma F2_weak {B C} (R R' : B -> C -> Prop) : forall l m, (forall i x y, nth_error l i = Some x -> nth_error m i = Some y -> R x y -> R' x y) -> Forall2 R l m -> Forall2 R' l m.
Proof. intros l m H F. induction F as [|a b l m Hab F IH]; constructor; [now apply (H 0%nat)|]. apply IH. intros i x y Ex Ey. now apply (H (S i)). Qed.

(** the state *)
Definition acell (g : option (nat * nat * parr)) : list (nat * pcell) := match g with Some (a, d, x) => acells a d x | None => [] end.
Definition aaddr (g : option (nat * nat * parr)) : option nat := match g with Some (a, _, _) => Some a | None => None end.
Definition arep (ma : list nat) (vm : list (option Z)) (g : option (nat * nat * parr)) (o : option (bool * list nat)) : Prop :=
  match g, o with Some (_, _, x), Some (f, l) => cb x = f /\ holds x (map (ptr ma) l) /\ Forall (alive vm) l | None, None => True | _, _ => False end.
Definition all (G : list (option (nat * nat * parr))) : list (nat * pcell) := flat_map acell G.
Record inv (w : pworld) (v : vworld) (G : list (option (nat * nat * parr))) : Prop := mkinv {
  i_own : owns (pm w) (all G ++ mcells (pmems w) (vmem v));
  i_adr : parrs w = map aaddr G;
  i_rep : Forall2 (arep (pmems w) (vmem v)) G (varr v);
  i_len : length (pmems w) = length (vmem v) }.
Lemma live_some {B} (l : list (option B)) i t : live l i = Ok t -> nth_error l i = Some (Some t).
Proof. unfold live. destruct (nth_error l i) as [[x|]|]; congruence. Qed.
Lemma some_live {B} (l : list (option B)) i t : nth_error l i = Some (Some t) -> live l i = Ok t.
Proof. unfold live. now intros ->. Qed.
Lemma split_at G i g : nth_error G i = Some g -> exists R, Permutation (all G) (acell g ++ R) /\ (forall g', Permutation (all (upd G i g')) (acell g' ++ R)) /\ (forall j h, nth_error G j = Some h -> j <> i -> exists R', Permutation R (acell h ++ R')).
Proof.
  unfold all. revert i. induction G as [|z G IH]; intros [|i] E; cbn [nth_error] in E; try discriminate.
  - assert (z = g) by congruence. subst. exists (flat_map acell G). cbn [upd flat_map]. split; [reflexivity|]. split; [reflexivity|]. intros [|j] h Ej N; [congruence|]. cbn [nth_error] in Ej. clear - Ej. revert j Ej. induction G as [|y G IH]; intros [|j] Ej; cbn [nth_error flat_map] in *; try discriminate; [assert (y = h) by congruence; subst; eexists; reflexivity|]. destruct (IH j Ej) as (R' & P). exists (acell y ++ R'). rewrite P. perm.
  - destruct (IH i E) as (R & P1 & P2 & P3). exists (acell z ++ R). cbn [upd flat_map]. split; [rewrite P1; perm|]. split; [intros g'; rewrite P2; perm|]. intros [|j] h Ej N; cbn [nth_error] in Ej.
    + assert (z = h) by congruence. subst. eexists. reflexivity.
    + destruct (P3 j h Ej) as (R' & P); [congruence|]. exists (acell z ++ R'). rewrite P. perm.
Qed.
Lemma get_arr w v G i f l : inv w v G -> live (varr v) i = Ok (f, l) -> exists a d x, nth_error G i = Some (Some (a, d, x)) /\ live (parrs w) i = Ok a /\ cb x = f /\ holds x (map (ptr (pmems w)) l) /\ Forall (alive (vmem v)) l.
Proof.
  intros V E. apply live_some in E. destruct (F2_nth_r _ _ _ _ _ (i_rep _ _ _ V) E) as (g & Eg & R). destruct g as [[[a d] x]|]; [|contradiction]. cbn [arep] in R. exists a, d, x. split; [exact Eg|]. split; [|exact R]. apply some_live. rewrite (i_adr _ _ _ V), nth_error_map, Eg. reflexivity.
Qed.
Lemma get_mem w v G k t : inv w v G -> live (vmem v) k = Ok t -> member w k = Ok (addr (pmems w) k) /\ rd_mem (pm w) (addr (pmems w) k) = Ok t /\ addr (pmems w) k <> 0%nat /\ alive (vmem v) k.
Proof.
  intros V E. apply live_some in E. pose proof (mcells_in (pmems w) (vmem v) k t (i_len _ _ _ V) E) as I. assert (J : In (addr (pmems w) k, PMem t) (all G ++ mcells (pmems w) (vmem v))) by (apply in_or_app; now right). split; [|split; [|split]].
  - unfold member, addr. assert (k < length (pmems w))%nat by (rewrite (i_len _ _ _ V); apply nth_error_Some; congruence). now rewrite (nth_error_nth' _ 0%nat).
  - unfold rd_mem. rewrite (owns_in _ _ _ _ (i_own _ _ _ V) J). reflexivity.
  - exact (owns_nonnull _ _ _ _ (i_own _ _ _ V) J).
  - now exists t.
Qed.
Lemma inj_of w v G : inv w v G -> forall j k, alive (vmem v) j -> alive (vmem v) k -> ptr (pmems w) j = ptr (pmems w) k -> j = k.
Proof.
  intros V j k A B E. apply (addr_inj (pmems w) (vmem v) (i_len _ _ _ V)); auto; [|unfold ptr in E; lia]. pose proof (owns_nodup _ _ (i_own _ _ _ V)) as N. rewrite map_app in N. clear - N. induction (map fst (all G)) as [|x l IH]; [exact N|]. cbn [app] in N. inversion N; auto.
Qed.
Lemma map_upd {B C} (g : B -> C) : forall l i x, map g (upd l i x) = upd (map g l) i (g x).
Proof. induction l as [|y l IH]; intros [|i] x; cbn [upd map]; [reflexivity|reflexivity|reflexivity|]. f_equal. apply IH. Qed.
Lemma upd_same {B} : forall (l : list B) i x, nth_error l i = Some x -> upd l i x = l.
Proof. induction l as [|y l IH]; intros [|i] x E; cbn [nth_error upd] in *; try discriminate; [congruence|]. f_equal. now apply IH. Qed.
(** an array changed, members as before *)
Lemma inv_arr w v G i a d x d' x' l' m' R : inv w v G -> nth_error G i = Some (Some (a, d, x)) -> (forall g', Permutation (all (upd G i g')) (acell g' ++ R)) -> owns m' (acells a d' x' ++ R ++ mcells (pmems w) (vmem v)) -> holds x' (map (ptr (pmems w)) l') -> Forall (alive (vmem v)) l' -> inv (mkpw m' (parrs w) (pmems w)) (mkvw (upd (varr v) i (Some (cb x', l'))) (vmem v)) (upd G i (Some (a, d', x'))).
Proof.
  intros V Eg P H Hx A. constructor; cbn [pm parrs pmems varr vmem].
  - apply (owns_perm _ _ _ H). rewrite P. cbn [acell]. perm.
  - rewrite map_upd, <- (i_adr _ _ _ V). cbn [aaddr]. symmetry. apply upd_same. rewrite (i_adr _ _ _ V), nth_error_map, Eg. reflexivity.
  - apply F2_upd; [exact (i_rep _ _ _ V)|]. cbn [arep]. auto.
  - exact (i_len _ _ _ V).
Qed.
(** members that are gone are in no array *)
Lemma rep_kill ma vm vm' G arrs : (forall i f l, nth_error arrs i = Some (Some (f, l)) -> forall j, In j l -> alive vm j -> alive vm' j) -> Forall2 (arep ma vm) G arrs -> Forall2 (arep ma vm') G arrs.
Proof.
  intros K. apply F2_weak. intros i g o Eg Eo R. destruct g as [[[a d] x]|], o as [[f l]|]; cbn [arep] in *; auto. destruct R as (R1 & R2 & R3). split; [exact R1|]. split; [exact R2|]. rewrite Forall_forall in *. intros j J. apply (K i f l Eo j J). now apply R3.
Qed.
