(** Proofs about SplayModel: the splay loop in memory. *)
From Coq Require Import Permutation.
From Verif Require Import Prelude AmemModel AmemProofs HeapModel Perm SplayModel.
Local Open Scope nat_scope.

Notation el := (nat * Z)%type.
Inductive tree := E | T (l : tree) (x : nat) (k : Z) (r : tree).
Definition ptr (t : tree) : nat := match t with E => 0 | T _ x _ _ => x end.
Fixpoint tb (t : tree) : list (nat * node) := match t with E => [] | T l x k r => (x, mknode (ptr l) (ptr r) k) :: tb l ++ tb r end.
Fixpoint ino (t : tree) : list el := match t with E => [] | T l x k r => ino l ++ (x, k) :: ino r end.
Fixpoint size (t : tree) : nat := match t with E => 0 | T l _ _ r => S (size l + size r) end.
Definition ctx := list (nat * Z * tree).
(* the tree of what is left of the sought place: a chain of right links from __node, last one first; and its mirror image *)
Fixpoint lbs (C : ctx) (u : nat) : list (nat * node) := match C with [] => [] | (x, k, A) :: C => (x, mknode (ptr A) u k) :: tb A ++ lbs C x end.
Fixpoint rbs (D : ctx) (v : nat) : list (nat * node) := match D with [] => [] | (x, k, A) :: D => (x, mknode v (ptr A) k) :: tb A ++ rbs D x end.
Fixpoint first (C : ctx) (u : nat) : nat := match C with [] => u | (x, _, _) :: C => first C x end.
Definition end_ (loc : nat) (C : ctx) : nat := match C with [] => loc | (x, _, _) :: _ => x end.
Fixpoint lwrap (C : ctx) (t : tree) : tree := match C with [] => t | (x, k, A) :: C => lwrap C (T A x k t) end.
Fixpoint rwrap (D : ctx) (t : tree) : tree := match D with [] => t | (x, k, A) :: D => rwrap D (T t x k A) end.
Fixpoint lseq (C : ctx) : list el := match C with [] => [] | (x, k, A) :: C => lseq C ++ ino A ++ [(x, k)] end.
Fixpoint rseq (D : ctx) : list el := match D with [] => [] | (x, k, A) :: D => (x, k) :: ino A ++ rseq D end.
Lemma lwrap_ptr C : forall t, ptr (lwrap C t) = first C (ptr t). Proof. induction C as [|[[x k] A] C IH]; intros t; [reflexivity|]. cbn [lwrap first]. now rewrite IH. Qed.
Lemma rwrap_ptr C : forall t, ptr (rwrap C t) = first C (ptr t). Proof. induction C as [|[[x k] A] C IH]; intros t; [reflexivity|]. cbn [rwrap first]. now rewrite IH. Qed.
Lemma lwrap_tb C : forall t, Permutation (tb (lwrap C t)) (lbs C (ptr t) ++ tb t).
Proof. induction C as [|[[x k] A] C IH]; intros t; [reflexivity|]. cbn [lwrap lbs]. rewrite IH. cbn [tb ptr]. perm. Qed.
Lemma rwrap_tb C : forall t, Permutation (tb (rwrap C t)) (rbs C (ptr t) ++ tb t).
Proof. induction C as [|[[x k] A] C IH]; intros t; [reflexivity|]. cbn [rwrap rbs]. rewrite IH. cbn [tb ptr]. perm. Qed.
Lemma lwrap_ino C : forall t, ino (lwrap C t) = lseq C ++ ino t.
Proof. induction C as [|[[x k] A] C IH]; intros t; [reflexivity|]. cbn [lwrap lseq]. rewrite IH. cbn [ino]. rewrite <- !app_assoc. reflexivity. Qed.
Lemma rwrap_ino C : forall t, ino (rwrap C t) = ino t ++ rseq C.
Proof. induction C as [|[[x k] A] C IH]; intros t; [cbn; now rewrite app_nil_r|]. cbn [rwrap rseq]. rewrite IH. cbn [ino]. rewrite <- !app_assoc. reflexivity. Qed.

Ltac asc := cbn [ino lseq rseq app]; repeat (progress (rewrite <- ?app_assoc; cbn [app])); reflexivity.
Section ST.
Variable loc : nat.
Variable R : list (nat * node).
Definition st (h : hp node) (t : tree) (C D : ctx) (u v : nat) : Prop := exists k0, owns h (tb t ++ lbs C u ++ rbs D v ++ (loc, mknode (first D v) (first C u) k0) :: R).
Lemma owns_rt (h : hp node) x c L w : owns h ((x, c) :: L) -> set_rt h x w = Ok (hput h x (mknode (lf c) w (key c))) /\ owns (hput h x (mknode (lf c) w (key c))) ((x, mknode (lf c) w (key c)) :: L).
Proof. intros O. unfold set_rt, get. rewrite (owns_get _ _ _ _ O). cbn [obind]. split; [reflexivity|]. now apply owns_put with (c := c). Qed.
Lemma owns_lf (h : hp node) x c L w : owns h ((x, c) :: L) -> set_lf h x w = Ok (hput h x (mknode w (rt c) (key c))) /\ owns (hput h x (mknode w (rt c) (key c))) ((x, mknode w (rt c) (key c)) :: L).
Proof. intros O. unfold set_lf, get. rewrite (owns_get _ _ _ _ O). cbn [obind]. split; [reflexivity|]. now apply owns_put with (c := c). Qed.
Lemma set_u h t C D u v w : st h t C D u v -> exists h', set_rt h (end_ loc C) w = Ok h' /\ st h' t C D w v.
Proof.
  intros (k0 & O). destruct C as [|[[x k] A] C]; cbn [end_ lbs first] in *.
  - assert (O1 : owns h ((loc, mknode (first D v) u k0) :: tb t ++ rbs D v ++ R)) by (apply (owns_perm _ _ _ O); perm). destruct (owns_rt _ _ _ _ w O1) as [E1 O2]. eexists. split; [exact E1|]. exists k0. apply (owns_perm _ _ _ O2). cbn [lbs first lf key]. perm.
  - assert (O1 : owns h ((x, mknode (ptr A) u k) :: tb t ++ tb A ++ lbs C x ++ rbs D v ++ (loc, mknode (first D v) (first C x) k0) :: R)) by (apply (owns_perm _ _ _ O); perm). destruct (owns_rt _ _ _ _ w O1) as [E1 O2]. eexists. split; [exact E1|]. exists k0. apply (owns_perm _ _ _ O2). cbn [lbs first lf key]. perm.
Qed.
Lemma set_v h t C D u v w : st h t C D u v -> exists h', set_lf h (end_ loc D) w = Ok h' /\ st h' t C D u w.
Proof.
  intros (k0 & O). destruct D as [|[[x k] A] D]; cbn [end_ rbs first] in *.
  - assert (O1 : owns h ((loc, mknode v (first C u) k0) :: tb t ++ lbs C u ++ R)) by (apply (owns_perm _ _ _ O); perm). destruct (owns_lf _ _ _ _ w O1) as [E1 O2]. eexists. split; [exact E1|]. exists k0. apply (owns_perm _ _ _ O2). cbn [rbs first rt key]. perm.
  - assert (O1 : owns h ((x, mknode v (ptr A) k) :: tb t ++ lbs C u ++ tb A ++ rbs D x ++ (loc, mknode (first D x) (first C u) k0) :: R)) by (apply (owns_perm _ _ _ O); perm). destruct (owns_lf _ _ _ _ w O1) as [E1 O2]. eexists. split; [exact E1|]. exists k0. apply (owns_perm _ _ _ O2). cbn [rbs first rt key]. perm.
Qed.
Lemma st_get h l x k r C D u v : st h (T l x k r) C D u v -> get h x = Ok (mknode (ptr l) (ptr r) k).
Proof. intros (k0 & O). apply (owns_in _ _ _ _ O). now left. Qed.
Lemma owns_ptr (h : hp node) t L : owns h (tb t ++ L) -> t <> E -> ptr t <> 0.
Proof. intros O N. destruct t as [|l x k r]; [congruence|]. apply (owns_nonnull _ _ x (mknode (ptr l) (ptr r) k) O). now left. Qed.
Lemma st_ptr h t C D u v : st h t C D u v -> t <> E -> (ptr t =? 0) = false.
Proof. intros (k0 & O) N. apply Nat.eqb_neq. now apply (owns_ptr _ _ _ O). Qed.
Lemma st_sub_l h l x k r C D u v : st h (T l x k r) C D u v -> l <> E -> (ptr l =? 0) = false.
Proof. intros (k0 & O) N. apply Nat.eqb_neq. apply (owns_ptr h l (((x, mknode (ptr l) (ptr r) k) :: tb r) ++ lbs C u ++ rbs D v ++ (loc, mknode (first D v) (first C u) k0) :: R)); [|exact N]. apply (owns_perm _ _ _ O). cbn [tb]. perm. Qed.
Lemma st_sub_r h l x k r C D u v : st h (T l x k r) C D u v -> r <> E -> (ptr r =? 0) = false.
Proof. intros (k0 & O) N. apply Nat.eqb_neq. apply (owns_ptr h r (((x, mknode (ptr l) (ptr r) k) :: tb l) ++ lbs C u ++ rbs D v ++ (loc, mknode (first D v) (first C u) k0) :: R)); [|exact N]. apply (owns_perm _ _ _ O). cbn [tb]. perm. Qed.
Lemma rot_r h ll y ky lr x k r C D u v : st h (T (T ll y ky lr) x k r) C D u v -> exists h', rotate_right h x y = Ok h' /\ st h' (T ll y ky (T lr x k r)) C D u v.
Proof.
  intros (k0 & O). unfold rotate_right, right, get. cbn [tb ptr] in O. set (X := lbs C u ++ rbs D v ++ (loc, mknode (first D v) (first C u) k0) :: R) in *.
  assert (O1 : owns h ((x, mknode y (ptr r) k) :: (y, mknode (ptr ll) (ptr lr) ky) :: tb ll ++ tb lr ++ tb r ++ X)) by (apply (owns_perm _ _ _ O); perm).
  rewrite (owns_in _ _ y (mknode (ptr ll) (ptr lr) ky) O1) by (right; now left). cbn [obind rt]. destruct (owns_lf _ _ _ _ (ptr lr) O1) as [E1 O2]. rewrite E1. cbn [obind rt key] in *.
  assert (O3 : owns (hput h x (mknode (ptr lr) (ptr r) k)) ((y, mknode (ptr ll) (ptr lr) ky) :: (x, mknode (ptr lr) (ptr r) k) :: tb ll ++ tb lr ++ tb r ++ X)) by (apply (owns_perm _ _ _ O2); perm).
  destruct (owns_rt _ _ _ _ x O3) as [E2 O4]. eexists. split; [exact E2|]. exists k0. apply (owns_perm _ _ _ O4). cbn [tb ptr lf key]. fold X. perm.
Qed.
Lemma rot_l h l x k rl y ky rr C D u v : st h (T l x k (T rl y ky rr)) C D u v -> exists h', rotate_left h x y = Ok h' /\ st h' (T (T l x k rl) y ky rr) C D u v.
Proof.
  intros (k0 & O). unfold rotate_left, left, get. cbn [tb ptr] in O. set (X := lbs C u ++ rbs D v ++ (loc, mknode (first D v) (first C u) k0) :: R) in *.
  assert (O1 : owns h ((x, mknode (ptr l) y k) :: (y, mknode (ptr rl) (ptr rr) ky) :: tb l ++ tb rl ++ tb rr ++ X)) by (apply (owns_perm _ _ _ O); perm).
  rewrite (owns_in _ _ y (mknode (ptr rl) (ptr rr) ky) O1) by (right; now left). cbn [obind lf]. destruct (owns_rt _ _ _ _ (ptr rl) O1) as [E1 O2]. rewrite E1. cbn [obind lf key] in *.
  assert (O3 : owns (hput h x (mknode (ptr l) (ptr rl) k)) ((y, mknode (ptr rl) (ptr rr) ky) :: (x, mknode (ptr l) (ptr rl) k) :: tb l ++ tb rl ++ tb rr ++ X)) by (apply (owns_perm _ _ _ O2); perm).
  destruct (owns_lf _ _ _ _ x O3) as [E2 O4]. eexists. split; [exact E2|]. exists k0. apply (owns_perm _ _ _ O4). cbn [tb ptr rt key]. fold X. perm.
Qed.
Lemma link_l h l x k r C D u v : st h (T l x k r) C D u v -> exists h', linkleft h x (end_ loc D) = Ok (h', ptr l) /\ st h' l C ((x, k, r) :: D) u (ptr l).
Proof.
  intros S. unfold linkleft. destruct (set_v _ _ _ _ _ _ x S) as (h' & E1 & S1). rewrite E1. cbn [obind]. unfold left. rewrite (st_get _ _ _ _ _ _ _ _ _ S1). cbn [obind lf]. exists h'. split; [reflexivity|]. destruct S1 as (k0 & O). exists k0. apply (owns_perm _ _ _ O). cbn [tb rbs first]. perm.
Qed.
Lemma link_r h l x k r C D u v : st h (T l x k r) C D u v -> exists h', linkright h x (end_ loc C) = Ok (h', ptr r) /\ st h' r ((x, k, l) :: C) D (ptr r) v.
Proof.
  intros S. unfold linkright. destruct (set_u _ _ _ _ _ _ x S) as (h' & E1 & S1). rewrite E1. cbn [obind]. unfold right. rewrite (st_get _ _ _ _ _ _ _ _ _ S1). cbn [obind rt]. exists h'. split; [reflexivity|]. destruct S1 as (k0 & O). exists k0. apply (owns_perm _ _ _ O). cbn [tb lbs first]. perm.
Qed.
Lemma assemble_ok h a x k b C D u v : st h (T a x k b) C D u v -> exists h' n, assemble h x loc (end_ loc C) (end_ loc D) = Ok h' /\ owns h' ((loc, n) :: tb (T (lwrap C a) x k (rwrap D b)) ++ R).
Proof.
  intros S. unfold assemble, left at 1. rewrite (st_get _ _ _ _ _ _ _ _ _ S). cbn [obind lf]. destruct (set_u _ _ _ _ _ _ (ptr a) S) as (h1 & E1 & S1). rewrite E1. cbn [obind]. unfold right at 1. rewrite (st_get _ _ _ _ _ _ _ _ _ S1). cbn [obind rt]. destruct (set_v _ _ _ _ _ _ (ptr b) S1) as (h2 & E2 & (k0 & O)). rewrite E2. cbn [obind].
  set (n := mknode (first D (ptr b)) (first C (ptr a)) k0) in *. unfold right, get. rewrite (owns_in _ _ loc n O) by (rewrite !in_app_iff; right; right; right; now left). cbn [obind rt n].
  assert (O1 : owns h2 ((x, mknode (ptr a) (ptr b) k) :: tb a ++ tb b ++ lbs C (ptr a) ++ rbs D (ptr b) ++ (loc, n) :: R)) by (apply (owns_perm _ _ _ O); cbn [tb]; perm).
  destruct (owns_lf _ _ _ _ (first C (ptr a)) O1) as [E3 O2]. rewrite E3. cbn [obind rt key] in *. unfold left, get. rewrite (owns_in _ _ loc n O2) by (right; rewrite !in_app_iff; right; right; right; right; now left). cbn [obind lf n].
  destruct (owns_rt _ _ _ _ (first D (ptr b)) O2) as [E4 O3]. cbn [lf key] in *. eexists _, n. split; [exact E4|]. apply (owns_perm _ _ _ O3). cbn [tb]. rewrite lwrap_tb, rwrap_tb, lwrap_ptr, rwrap_ptr. perm.
Qed.

Section LOOP.
Variable c : Z -> Z.
Definition lt_ (x : el) : Prop := (c (snd x) < 0)%Z.
Definition gt_ (x : el) : Prop := (c (snd x) > 0)%Z.
(* the answers are positive, then at most once zero, then negative *)
Definition mono (S : list el) : Prop := forall A x B, S = A ++ x :: B -> (lt_ x -> Forall lt_ B) /\ (gt_ x -> Forall gt_ A) /\ (c (snd x) = 0%Z -> Forall gt_ A /\ Forall lt_ B).
Lemma mono_l S1 S2 : mono (S1 ++ S2) -> mono S1.
Proof. intros M A x B ->. specialize (M A x (B ++ S2)). rewrite <- app_assoc in M. destruct (M eq_refl) as (M1 & M2 & M3). split; [intros H; now apply M1, Forall_app in H|]. split; [exact M2|]. intros H. apply M3 in H as [H1 H2]. apply Forall_app in H2. tauto. Qed.
Lemma mono_r S1 S2 : mono (S1 ++ S2) -> mono S2.
Proof. intros M A x B ->. specialize (M (S1 ++ A) x B). rewrite <- app_assoc in M. destruct (M eq_refl) as (M1 & M2 & M3). split; [exact M1|]. split; [intros H; apply M2 in H; apply Forall_app in H; tauto|]. intros H. apply M3 in H as [H1 H2]. apply Forall_app in H1. tauto. Qed.
Lemma size_pos t : t <> E -> 1 <= size t. Proof. destruct t; [congruence|]. cbn [size]. lia. Qed.
Lemma tree_dec (t : tree) : t = E \/ exists l x k r, t = T l x k r. Proof. destruct t; eauto 6. Qed.
Lemma loop_ok : forall fuel t C D u v h, t <> E -> size t <= fuel -> st h t C D u v -> Forall gt_ (lseq C) -> Forall lt_ (rseq D) -> mono (ino t) ->
  exists h' a x k b C' D' u' v', loop fuel c h (ptr t) (end_ loc C) (end_ loc D) = Ok (h', x, end_ loc C', end_ loc D') /\ st h' (T a x k b) C' D' u' v' /\
    lseq C' ++ ino (T a x k b) ++ rseq D' = lseq C ++ ino t ++ rseq D /\ Forall gt_ (lseq C' ++ ino a) /\ Forall lt_ (ino b ++ rseq D').
Proof.
  induction fuel as [|f IH]; intros t C D u v h N F S HC HD M; [pose proof (size_pos t N); lia|]. destruct t as [|l x k r]; [congruence|]. cbn [size] in F. cbn [loop ptr]. unfold keyof at 1. rewrite (st_get _ _ _ _ _ _ _ _ _ S). cbn [obind key]. cbn [ino] in M. destruct (M _ _ _ eq_refl) as (M1 & M2 & M3). unfold lt_, gt_ in M1, M2; cbn [snd] in *. fold lt_ in M1. fold gt_ in M2.
  destruct (c k =? 0)%Z eqn:K0.
  { apply Z.eqb_eq in K0. destruct (M3 K0). exists h, l, x, k, r, C, D, u, v. split; [reflexivity|]. split; [exact S|]. split; [reflexivity|]. split; apply Forall_app; auto. }
  destruct (c k <? 0)%Z eqn:K1.
  - apply Z.ltb_lt in K1. specialize (M1 K1). unfold left at 1. rewrite (st_get _ _ _ _ _ _ _ _ _ S). cbn [obind lf].
    destruct (tree_dec l) as [-> | (ll & y & ky & lr & ->)].
    + cbn [ptr Nat.eqb]. exists h, E, x, k, r, C, D, u, v. split; [reflexivity|]. split; [exact S|]. split; [reflexivity|]. split; [cbn [ino]; now rewrite app_nil_r|]. apply Forall_app; auto.
    + rewrite (st_sub_l _ _ _ _ _ _ _ _ _ S) by discriminate. cbn [ptr].
      assert (G : get h y = Ok (mknode (ptr ll) (ptr lr) ky)). { destruct S as (k0 & O). apply (owns_in _ _ _ _ O). cbn [tb app]. right. now left. }
      unfold keyof. rewrite G. cbn [obind key]. destruct (c ky <? 0)%Z eqn:K2.
      * apply Z.ltb_lt in K2. destruct (rot_r _ _ _ _ _ _ _ _ _ _ _ _ S) as (h1 & E1 & S1). rewrite E1. cbn [obind]. unfold left at 1. rewrite (st_get _ _ _ _ _ _ _ _ _ S1). cbn [obind lf].
        assert (LY : Forall lt_ (ino (T lr x k r))). { cbn [ino] in M. rewrite <- app_assoc in M. cbn [app] in M. destruct (M _ _ _ eq_refl) as (Y & _). apply Y. exact K2. }
        destruct (tree_dec ll) as [-> | (l3 & z & kz & l4 & Ell)].
        -- cbn [ptr Nat.eqb]. exists h1, E, y, ky, (T lr x k r), C, D, u, v. split; [reflexivity|]. split; [exact S1|]. split; [asc|]. split; [cbn [ino]; now rewrite app_nil_r|]. apply Forall_app; auto.
        -- assert (NL : ll <> E) by congruence. rewrite (st_sub_l _ _ _ _ _ _ _ _ _ S1) by exact NL. destruct (link_l _ _ _ _ _ _ _ _ _ S1) as (h2 & E2 & S2). rewrite E2. cbn [obind].
           destruct (IH ll C ((y, ky, T lr x k r) :: D) u (ptr ll) h2 NL) as (h3 & a & x3 & k3 & b & C3 & D3 & u3 & v3 & E3 & S3 & Q3 & A3 & B3).
           { cbn [size] in F. lia. } { exact S2. } { exact HC. } { cbn [rseq]. constructor; [exact K2|]. apply Forall_app; auto. } { cbn [ino] in M. rewrite <- app_assoc in M. now apply mono_l in M. }
           cbn [end_] in E3. rewrite E3. exists h3, a, x3, k3, b, C3, D3, u3, v3. split; [reflexivity|]. split; [exact S3|]. split; [|split; assumption]. rewrite Q3. asc.
      * destruct (link_l _ _ _ _ _ _ _ _ _ S) as (h2 & E2 & S2). rewrite E2. cbn [obind]. set (l := T ll y ky lr) in *.
        destruct (IH l C ((x, k, r) :: D) u (ptr l) h2) as (h3 & a & x3 & k3 & b & C3 & D3 & u3 & v3 & E3 & S3 & Q3 & A3 & B3).
        { unfold l; discriminate. } { lia. } { exact S2. } { exact HC. } { cbn [rseq]. constructor; [exact K1|]. apply Forall_app; auto. } { now apply mono_l in M. }
        cbn [end_] in E3. rewrite E3. exists h3, a, x3, k3, b, C3, D3, u3, v3. split; [reflexivity|]. split; [exact S3|]. split; [|split; assumption]. rewrite Q3. asc.
  - assert (K3 : (c k > 0)%Z) by (apply Z.eqb_neq in K0; apply Z.ltb_ge in K1; lia). specialize (M2 K3). unfold right at 1. rewrite (st_get _ _ _ _ _ _ _ _ _ S). cbn [obind rt].
    destruct (tree_dec r) as [-> | (rl & y & ky & rr & ->)].
    + cbn [ptr Nat.eqb]. exists h, l, x, k, E, C, D, u, v. split; [reflexivity|]. split; [exact S|]. split; [reflexivity|]. split; [apply Forall_app; auto|]. exact HD.
    + rewrite (st_sub_r _ _ _ _ _ _ _ _ _ S) by discriminate. cbn [ptr].
      assert (G : get h y = Ok (mknode (ptr rl) (ptr rr) ky)). { destruct S as (k0 & O). apply (owns_in _ _ _ _ O). cbn [tb app]. right. apply in_or_app. left. apply in_or_app. right. now left. }
      unfold keyof. rewrite G. cbn [obind key]. destruct (c ky >? 0)%Z eqn:K2.
      * assert (K4 : (c ky > 0)%Z) by (unfold Z.gtb in K2; destruct (c ky ?= 0)%Z eqn:KK; try discriminate; exact KK). destruct (rot_l _ _ _ _ _ _ _ _ _ _ _ _ S) as (h1 & E1 & S1). rewrite E1. cbn [obind]. unfold right at 1. rewrite (st_get _ _ _ _ _ _ _ _ _ S1). cbn [obind rt].
        assert (GY : Forall gt_ (ino (T l x k rl))). { cbn [ino] in M |- *. replace (ino l ++ (x, k) :: ino rl ++ (y, ky) :: ino rr) with ((ino l ++ (x, k) :: ino rl) ++ (y, ky) :: ino rr) in M by (rewrite <- app_assoc; reflexivity). destruct (M _ _ _ eq_refl) as (_ & Y & _). apply Y. exact K4. }
        destruct (tree_dec rr) as [-> | (l3 & z & kz & l4 & Err)].
        -- cbn [ptr Nat.eqb]. exists h1, (T l x k rl), y, ky, E, C, D, u, v. split; [reflexivity|]. split; [exact S1|]. split; [asc|]. split; [apply Forall_app; auto|exact HD].
        -- assert (NL : rr <> E) by congruence. rewrite (st_sub_r _ _ _ _ _ _ _ _ _ S1) by exact NL. destruct (link_r _ _ _ _ _ _ _ _ _ S1) as (h2 & E2 & S2). rewrite E2. cbn [obind].
           destruct (IH rr ((y, ky, T l x k rl) :: C) D (ptr rr) v h2 NL) as (h3 & a & x3 & k3 & b & C3 & D3 & u3 & v3 & E3 & S3 & Q3 & A3 & B3).
           { cbn [size] in F. lia. } { exact S2. } { cbn [lseq]. apply Forall_app; split; [exact HC|]. apply Forall_app; split; [exact GY|]. constructor; [exact K4|constructor]. } { exact HD. } { cbn [ino] in M. apply mono_r in M. apply (mono_r [(x, k)]) in M. apply mono_r in M. now apply (mono_r [(y, ky)]) in M. }
           cbn [end_] in E3. rewrite E3. exists h3, a, x3, k3, b, C3, D3, u3, v3. split; [reflexivity|]. split; [exact S3|]. split; [|split; assumption]. rewrite Q3. asc.
      * destruct (link_r _ _ _ _ _ _ _ _ _ S) as (h2 & E2 & S2). rewrite E2. cbn [obind]. set (r := T rl y ky rr) in *.
        destruct (IH r ((x, k, l) :: C) D (ptr r) v h2) as (h3 & a & x3 & k3 & b & C3 & D3 & u3 & v3 & E3 & S3 & Q3 & A3 & B3).
        { unfold r; discriminate. } { lia. } { exact S2. } { cbn [lseq]. apply Forall_app; split; [exact HC|]. apply Forall_app; split; [exact M2|]. constructor; [exact K3|constructor]. } { exact HD. } { apply mono_r in M. now apply (mono_r [(x, k)]) in M. }
        cbn [end_] in E3. rewrite E3. exists h3, a, x3, k3, b, C3, D3, u3, v3. split; [reflexivity|]. split; [exact S3|]. split; [|split; assumption]. rewrite Q3. asc.
Qed.
End LOOP.
End ST.
Lemma splay_ok pick c fuel (h : hp node) t R : good pick -> owns h (tb t ++ R) -> t <> E -> size t <= fuel -> mono c (ino t) ->
  exists h' a x k b, splay pick fuel c h (ptr t) = Ok (h', x) /\ owns h' (tb (T a x k b) ++ R) /\ ino (T a x k b) = ino t /\ Forall (gt_ c) (ino a) /\ Forall (lt_ c) (ino b).
Proof.
  intros G O N F M. unfold splay. destruct (owns_new pick h (mknode 0 0 0) _ G O) as (loc & h1 & E1 & O1). rewrite E1.
  assert (S1 : st loc R h1 t [] [] 0 0). { exists 0%Z. apply (owns_perm _ _ _ O1). cbn [lbs rbs first]. perm. }
  destruct (loop_ok loc R c fuel t [] [] 0 0 h1 N F S1) as (h2 & a & x & k & b & C & D & u & v & E2 & S2 & Q & A & B); [constructor|constructor|exact M|]. cbn [end_] in E2. rewrite E2. cbn [obind].
  destruct (assemble_ok _ _ _ _ _ _ _ _ _ _ _ S2) as (h3 & n & E3 & O3). rewrite E3. cbn [obind]. destruct (owns_free _ _ _ _ O3) as (h4 & E4 & O4). rewrite E4. cbn [obind].
  exists h4, (lwrap C a), x, k, (rwrap D b). split; [reflexivity|]. split; [exact O4|]. split; [|split; [now rewrite lwrap_ino|now rewrite rwrap_ino]].
  cbn [ino lseq rseq app] in *. rewrite app_nil_r in Q. rewrite <- Q, lwrap_ino, rwrap_ino, <- !app_assoc. reflexivity.
Qed.
