(** zt_atexit in several threads: invariant and draining. *)
From Coq Require Import Permutation.
From Verif Require Import Prelude Heap ElistModel AtexitModel Perm AraceModel AraceSpec.

Definition nodes (t : thread) : list nat :=
  match at_ t with Idle => [] | Check c | Register c | Read c | Link1 c _ | Link2 c _ | Link3 c _ | Link4 c _ => [c] end.
(* published callbacks, latest first; each one's next is the head or an older one *)
(* [al]: no two calls of zt_atexit overlap, and then it is the one just before *)
Definition aims (al : bool) (n : nat) (rest : list nat) : Prop := (n = 1 \/ In n rest) /\ (al = true -> n = match rest with [] => 1 | d :: _ => d end).
Fixpoint chain (al : bool) (m : lmem) (pub : list nat) : Prop :=
  match pub with [] => True | c :: rest => (exists p n, cells m c = Some (mklink p n) /\ aims al n rest) /\ chain al m rest end.
Definition cell (m : lmem) (c : nat) : Prop := exists k, cells m c = Some k.
Definition tinv (al : bool) (s : state) (pub : list nat) (t : thread) : Prop :=
  match at_ t with
  | Idle => True
  | _ => exists v r, todo t = v :: r /\ fst v <> 0 /\
      match at_ t with
      | Idle => True
      | Check c | Register c => cell (mem s) c
      | Read c => cell (mem s) c /\ libc s <> []
      | Link1 c n | Link2 c n => cell (mem s) c /\ libc s <> [] /\ cbs s c = Some v /\ aims al n pub
      | Link3 c n => (exists p, cells (mem s) c = Some (mklink p n)) /\ libc s <> [] /\ cbs s c = Some v /\ aims al n pub
      | Link4 c n => cells (mem s) c = Some (mklink 1 n) /\ libc s <> [] /\ cbs s c = Some v /\ aims al n pub
      end
  end.
Definition late (c : nat) (t : thread) : Prop := match at_ t with Link2 _ n | Link3 _ n | Link4 _ n => n = c | _ => False end.
Definition ev (v : nat * nat) : event := Reg (fst v) (snd v).
Record inv (al : bool) (ps : list (list (nat * nat))) (w : world) (pub : list nat) (vals : list (nat * nat)) : Prop := mkinv {
  i_wf : wf (mem (st w));
  i_head : exists p, cells (mem (st w)) 1 = Some (mklink p (match pub with [] => 1 | c :: _ => c end));
  i_chain : chain al (mem (st w)) pub;
  i_nodup : NoDup (1 :: pub ++ flat_map nodes (ths w));
  i_ths : Forall (tinv al (st w) pub) (ths w);
  i_first : match pub with [] => True | c :: _ => (exists n, cells (mem (st w)) c = Some (mklink 1 n)) \/ Exists (late c) (ths w) end;
  i_vals : Forall2 (fun c v => cbs (st w) c = Some v /\ fst v <> 0) pub vals;
  i_all : Permutation (vals ++ flat_map todo (ths w)) (concat ps);
  i_libc : (pub <> [] -> libc (st w) <> []) /\ Forall (fun h => h = Hzt) (libc (st w));
  i_log : log (st w) = map ev (rev vals);
  i_null : Forall (fun t => Forall (fun v => fst v <> 0) (todo t)) (ths w) }.

(** ** Memory *)
Lemma set_prev_ok m a p n v : cells m a = Some (mklink p n) -> set_prev m a v = Ok (hupd m a (mklink v n)).
Proof. intros H. unfold set_prev. rewrite (load_ok _ _ _ H). cbn [obind]. now rewrite (store_ok _ _ _ _ H). Qed.
Lemma set_next_ok m a p n v : cells m a = Some (mklink p n) -> set_next m a v = Ok (hupd m a (mklink p v)).
Proof. intros H. unfold set_next. rewrite (load_ok _ _ _ H). cbn [obind]. now rewrite (store_ok _ _ _ _ H). Qed.
Lemma get_next_ok m a p n : cells m a = Some (mklink p n) -> get_next m a = Ok n.
Proof. intros H. unfold get_next. now rewrite (load_ok _ _ _ H). Qed.
Lemma chain_cell al m pub c : chain al m pub -> In c pub -> exists p n, cells m c = Some (mklink p n).
Proof. induction pub as [|d pub IH]; [intros _ []|]. intros ((p & n & E & _) & C) [<-|I]; eauto. Qed.
Lemma chain_same al m m' pub : chain al m pub -> (forall c p n, In c pub -> cells m c = Some (mklink p n) -> exists p', cells m' c = Some (mklink p' n)) -> chain al m' pub.
Proof.
  induction pub as [|c pub IH]; intros C S; [exact Logic.I|]. destruct C as ((p & n & E & N) & C). split.
  - destruct (S c p n (or_introl eq_refl) E) as (p' & E'). eauto.
  - apply IH; [exact C|]. intros. eapply S; [now right|eassumption].
Qed.
Lemma chain_upd_prev al m pub a p n v : chain al m pub -> cells m a = Some (mklink p n) -> chain al (hupd m a (mklink v n)) pub.
Proof.
  intros C E. eapply chain_same; [exact C|]. intros c p' n' _ E'. destruct (Nat.eq_dec c a) as [->|N]; [rewrite hupd_same; rewrite E in E'; assert (n = n') by congruence; subst; eauto|]. rewrite hupd_other by assumption. eauto.
Qed.
Lemma chain_upd_other al m pub a k : chain al m pub -> ~ In a pub -> chain al (hupd m a k) pub.
Proof. intros C E. eapply chain_same; [exact C|]. intros c p' n' I E'. rewrite hupd_other by congruence. eauto. Qed.
Lemma tinv_mono al s s' pub pub' t : (forall x, In x (nodes t) -> cells (mem s') x = cells (mem s) x /\ cbs s' x = cbs s x) -> (forall n, nodes t <> [] -> aims al n pub -> aims al n pub') -> (libc s <> [] -> libc s' <> []) -> tinv al s pub t -> tinv al s' pub' t.
Proof.
  intros H P L. unfold tinv, nodes, cell in *. destruct (at_ t) as [|c|c|c|c n|c n|c n|c n]; try tauto; cbn [In] in H; destruct (H c (or_introl eq_refl)) as (H1 & H2); rewrite H1; try rewrite H2.
  all: intros (v & r & X); exists v, r; repeat match goal with K : _ /\ _ |- _ => destruct K end; repeat match goal with |- _ /\ _ => split end; try assumption; try tauto; auto.
  all: apply P; [discriminate|assumption].
Qed.

Lemma split_nth {A} (l : list A) i t : nth_error l i = Some t -> exists l1 l2, l = l1 ++ t :: l2 /\ forall x, upd l i x = l1 ++ x :: l2.
Proof.
  revert i. induction l as [|a l IH]; intros [|i] H; try discriminate; cbn [nth_error] in H.
  - assert (a = t) by congruence. subst. exists [], l. split; reflexivity.
  - destruct (IH i H) as (l1 & l2 & -> & U). exists (a :: l1), l2. split; [reflexivity|]. intros x. cbn [upd]. now rewrite U.
Qed.
Lemma setc_same f a v : setc f a v a = v.
Proof. unfold setc. now rewrite Nat.eqb_refl. Qed.
Lemma setc_other f a b v : b <> a -> setc f a v b = f b.
Proof. unfold setc. intros H. apply Nat.eqb_neq in H. now rewrite H. Qed.

(** the thread that moves, seen apart from the others *)
(* at most one thread is inside zt_atexit *)
Definition few (l : list thread) : Prop := length (flat_map nodes l) <= 1.
Lemma step_inv al ps w pub vals i : inv al ps w pub vals -> (al = true -> few (ths w)) -> exists w' pub' vals', step w i = Ok w' /\ inv al ps w' pub' vals'.
Proof.
  intros V Few. unfold step. destruct (nth_error (ths w) i) as [t|] eqn:N; [|eauto 6]. destruct (split_nth _ _ _ N) as (l1 & l2 & L & U).
  destruct V as [Wf (hp & Hd) Ch Nd Th Fi Va Al (Lb & Lz) Lg Nu]. rewrite L in Nd, Th, Fi, Al, Nu, Few. unfold few in Few. rewrite flat_map_app in Few. cbn [flat_map] in Few. rewrite !app_length in Few.
  apply Forall_app in Th. destruct Th as (T1 & T2). apply Forall_cons_iff in T2. destruct T2 as (T & T2).
  apply Forall_app in Nu. destruct Nu as (N1 & N2). apply Forall_cons_iff in N2. destruct N2 as (Nt & N2).
  assert (OT : forall P : thread -> Prop, Forall P l1 -> P t -> Forall P l2 -> Forall P (l1 ++ t :: l2)) by (intros; apply Forall_app; split; [assumption|now constructor]).
  unfold tstep. destruct (todo t) as [|[fn data] r] eqn:TD.
  { cbn [obind]. rewrite U. exists (mkworld (st w) (l1 ++ t :: l2)), pub, vals. split; [reflexivity|]. constructor; cbn [st ths]; eauto. apply OT; try assumption. rewrite TD. constructor. }
  apply Forall_cons_iff in Nt. destruct Nt as (Nf & Nr). cbn [fst] in Nf.
  (* steps that leave todo alone: what is to be shown *)
  assert (KEEP : forall s' a', let t' := mkthread ((fn, data) :: r) a' in
     wf (mem s') -> (exists p, cells (mem s') 1 = Some (mklink p (match pub with [] => 1 | c :: _ => c end))) -> chain al (mem s') pub ->
     (nodes t' = nodes t \/ exists c, nodes t' = [c] /\ nodes t = [] /\ ~ In c (1 :: pub ++ flat_map nodes (l1 ++ t :: l2))) ->
     tinv al s' pub t' -> (forall x, In x (flat_map nodes l1 ++ flat_map nodes l2) -> cells (mem s') x = cells (mem (st w)) x /\ cbs s' x = cbs (st w) x) ->
     (libc (st w) <> [] -> libc s' <> []) -> Forall (fun h => h = Hzt) (libc s') ->
     (match pub with [] => True | c :: _ => (exists n, cells (mem s') c = Some (mklink 1 n)) \/ Exists (late c) (l1 ++ t' :: l2) end) ->
     (forall c, In c pub -> cbs s' c = cbs (st w) c) -> log s' = log (st w) ->
     inv al ps (mkworld s' (l1 ++ t' :: l2)) pub vals).
  { intros s' a' t' W' H' C' Nn Ti Oth Lb' Lz' Fi' Cb' Lg'. constructor; cbn [st ths]; try assumption.
    - rewrite flat_map_app in *. cbn [flat_map] in *. destruct Nn as [-> | (c & -> & Nt0 & Fr)]; [exact Nd|]. rewrite Nt0 in Nd, Fr. cbn [app] in Nd, Fr.
      apply (Permutation_NoDup (l := c :: (1 :: pub ++ flat_map nodes l1 ++ flat_map nodes l2))); [perm|]. now constructor.
    - apply Forall_app. split; [|constructor; [exact Ti|]].
      + apply Forall_forall. intros x Ix. rewrite Forall_forall in T1. eapply tinv_mono; [|intros y _ Iy; exact Iy|exact Lb'|apply T1, Ix]. intros y Iy. apply Oth. apply in_app_iff. left. apply in_flat_map. eauto.
      + apply Forall_forall. intros x Ix. rewrite Forall_forall in T2. eapply tinv_mono; [|intros y _ Iy; exact Iy|exact Lb'|apply T2, Ix]. intros y Iy. apply Oth. apply in_app_iff. right. apply in_flat_map. eauto.
    - clear -Va Cb'. revert Cb'. induction Va as [|c v pub vals (A & B) _ IH]; intros Cb'; [constructor|]. constructor; [rewrite (Cb' c (or_introl eq_refl)); split; assumption|]. apply IH. intros. apply Cb'. now right.
    - rewrite flat_map_app in *. cbn [flat_map] in *. rewrite TD in Al. exact Al.
    - split; [|assumption]. intros P. apply Lb', Lb, P.
    - congruence.
    - apply Forall_app. split; [assumption|]. constructor; [|assumption]. cbn [todo]. constructor; assumption. }
  (* facts about distinctness *)
  rewrite flat_map_app in Nd. cbn [flat_map] in Nd.
  assert (DJ : forall c, nodes t = [c] -> c <> 1 /\ ~ In c pub /\ ~ In c (flat_map nodes l1 ++ flat_map nodes l2)).
  { intros c E. rewrite E in Nd. assert (Nd' : NoDup (c :: 1 :: pub ++ flat_map nodes l1 ++ flat_map nodes l2)) by (eapply Permutation_NoDup; [|exact Nd]; perm).
    inversion Nd' as [|? ? X _]; subst. cbn [In] in X. rewrite !in_app_iff in X. rewrite in_app_iff. repeat split; [intros ->|..]; tauto. }
  assert (DP : forall x, In x (flat_map nodes l1 ++ flat_map nodes l2) -> x <> 1 /\ ~ In x pub).
  { intros x I. assert (Nd' : NoDup ((flat_map nodes l1 ++ flat_map nodes l2) ++ (1 :: pub ++ nodes t))) by (eapply Permutation_NoDup; [|exact Nd]; perm).
    split; [intros ->|intros J]; apply in_split in I; destruct I as (a & b & E); rewrite E in Nd'; rewrite <- app_assoc in Nd'; cbn [app] in Nd'; apply NoDup_remove_2 in Nd'; apply Nd'; rewrite !in_app_iff; cbn [In]; rewrite !in_app_iff; tauto. }
  assert (NP : ~ In 1 pub) by (inversion Nd as [|? ? X _]; subst; rewrite in_app_iff in X; tauto).
  (* the first published callback keeps its state when its cell and the late threads are kept *)
  assert (FK : forall (m' : lmem) t', (forall c, In c pub -> cells m' c = cells (mem (st w)) c) -> (forall c, late c t -> late c t') ->
     match pub with [] => True | c :: _ => (exists n, cells m' c = Some (mklink 1 n)) \/ Exists (late c) (l1 ++ t' :: l2) end).
  { intros m' t' K1 K2. destruct pub as [|c pub']; [exact Logic.I|]. rewrite (K1 c) by now left. destruct Fi as [F|F]; [now left|]. right. apply Exists_app in F. apply Exists_app. destruct F as [F|F]; [now left|]. right. apply Exists_cons in F. apply Exists_cons. destruct F as [F|F]; [left; now apply K2|now right]. }
  unfold tinv in T. destruct (at_ t) as [|c|c|c|c n|c n|c n|c n] eqn:AT; rewrite ?TD in T.
  - (* Idle *)
    assert (G : negb (fn =? 0) = true) by (apply negb_true_iff, Nat.eqb_neq; exact Nf). unfold guard. rewrite G. cbn [obind alloc]. rewrite U. eexists _, pub, vals. split; [reflexivity|].
    set (c := fresh (mem (st w))) in *.
    assert (FC : forall x k, cells (mem (st w)) x = Some k -> x <> c). { intros x k E ->. unfold c in E. rewrite (wf_fresh _ Wf) in E. discriminate. }
    assert (F1 : 1 <> c) by (eapply FC, Hd).
    assert (F2 : ~ In c pub). { intros I. destruct (chain_cell _ _ _ _ Ch I) as (p & n & E). now apply FC in E. }
    assert (F3 : ~ In c (flat_map nodes l1 ++ flat_map nodes l2)).
    { intros I. apply in_app_iff in I. assert (K : forall l, Forall (tinv al (st w) pub) l -> In c (flat_map nodes l) -> False); [|destruct I as [I|I]; [now apply (K l1)|now apply (K l2)]].
      intros l Fl J. apply in_flat_map in J. destruct J as (x & Jx & Jc). rewrite Forall_forall in Fl. specialize (Fl x Jx). unfold tinv in Fl. unfold nodes in Jc. unfold cell in Fl.
      destruct (at_ x); cbn [In] in Jc; try tauto; destruct Jc as [->|[]]; destruct Fl as (v & q & _ & _ & Fl).
      all: repeat match goal with K : _ /\ _ |- _ => destruct K | K : exists _, _ |- _ => destruct K end; match goal with K : cells (mem _) _ = Some _, Q : forall x k, cells _ x = Some k -> x <> _ |- _ => now apply Q in K end. }
    apply KEEP; cbn [mem cbs libc log]; try assumption; try tauto.
    + split; [|split]; cbn [cells fresh].
      * destruct (Nat.eqb_spec 0 c) as [E|_]; [|exact (proj1 Wf)]. exfalso. pose proof (proj1 (proj2 Wf)). unfold c in E. lia.
      * lia.
      * intros a La. destruct (Nat.eqb_spec a c) as [->|_]; [unfold c in La; lia|]. apply (proj2 (proj2 Wf)). unfold c in *. lia.
    + exists hp. cbn [cells]. destruct (Nat.eqb_spec 1 c); [contradiction|exact Hd].
    + eapply chain_same; [exact Ch|]. intros x p n I E. exists p. cbn [cells]. destruct (Nat.eqb_spec x c) as [->|_]; [contradiction|exact E].
    + right. exists c. unfold nodes at 1 2. cbn [at_]. rewrite AT. repeat split. rewrite flat_map_app. cbn [flat_map]. unfold nodes at 2. rewrite AT. cbn [app In]. rewrite !in_app_iff in *. intros [E|[I|I]]; tauto.
    + unfold tinv. cbn [at_ todo]. exists (fn, data), r. repeat split; [exact Nf|]. unfold cell. cbn [cells mem]. rewrite Nat.eqb_refl. eauto.
    + intros x I. split; [|reflexivity]. cbn [cells]. destruct (Nat.eqb_spec x c) as [->|_]; [contradiction|reflexivity].
    + apply FK.
      * intros x I. cbn [mem cells]. destruct (Nat.eqb_spec x c) as [->|_]; [contradiction|reflexivity].
      * unfold late. rewrite AT. tauto.
  - (* Check *)
    unfold stack_empty, elist_empty. unfold cb_stack. rewrite (get_next_ok _ _ _ _ Hd). cbn [obind]. rewrite U. eexists _, pub, vals. split; [reflexivity|].
    assert (E : forall b : bool, nodes (mkthread ((fn, data) :: r) (if b then Register c else Read c)) = [c]) by (intros [|]; reflexivity).
    destruct T as (v & q & Tv & _ & Tc). assert (v = (fn, data)) by congruence. subst v.
    apply KEEP; try assumption; try tauto; eauto.
    + left. rewrite E. unfold nodes. now rewrite AT.
    + unfold tinv. cbn [at_ todo]. destruct pub as [|d pub']; cbn [Nat.eqb].
      * cbn. exists (fn, data), r. auto.
      * destruct (Nat.eqb_spec d 1) as [->|_]; [exfalso; apply NP; now left|]. cbn. exists (fn, data), r. repeat split; try assumption. apply Lb. discriminate.
    + apply FK; [reflexivity|]. unfold late. rewrite AT. tauto.
  - (* Register *)
    cbn [obind]. rewrite U. eexists _, pub, vals. split; [reflexivity|]. destruct T as (v & q & Tv & _ & Tc). assert (v = (fn, data)) by congruence. subst v.
    apply KEEP; cbn [mem cbs libc log]; try assumption; try tauto; eauto.
    + left. unfold nodes. now rewrite AT.
    + unfold tinv. cbn. exists (fn, data), r. repeat split; try assumption. discriminate.
    + discriminate.
    + apply FK; [reflexivity|]. unfold late. rewrite AT. tauto.
  - (* Read *)
    unfold cb_stack. rewrite (get_next_ok _ _ _ _ Hd). cbn [obind]. rewrite U. eexists _, pub, vals. split; [reflexivity|]. destruct T as (v & q & Tv & _ & Tc & Tl). assert (v = (fn, data)) by congruence. subst v.
    destruct (DJ c) as (D1 & D2 & D3); [unfold nodes; now rewrite AT|].
    apply KEEP; cbn [mem cbs libc log]; try assumption; try tauto; eauto.
    + left. unfold nodes. now rewrite AT.
    + unfold tinv. cbn [at_ todo mem cbs libc]. exists (fn, data), r. repeat split; try assumption; [now rewrite setc_same|]. destruct pub; [now left|right; now left].
    + intros x I. split; [reflexivity|]. rewrite setc_other; [reflexivity|]. intros ->. contradiction.
    + apply FK; [reflexivity|]. unfold late. rewrite AT. tauto.
    + intros x I. rewrite setc_other; [reflexivity|]. intros ->. contradiction.
  - (* Link1 *)
    destruct T as (v & q & Tv & _ & Tc & Tl & Tb & Tn & TA). assert (v = (fn, data)) by congruence. subst v. destruct (DJ c) as (D1 & D2 & D3); [unfold nodes; now rewrite AT|].
    assert (CN : exists p k, cells (mem (st w)) n = Some (mklink p k)). { destruct Tn as [->|I]; [eauto|]. eapply chain_cell; eassumption. }
    destruct CN as (p & k & CN). rewrite (set_prev_ok _ _ _ _ c CN). cbn [obind]. rewrite U. eexists _, pub, vals. split; [reflexivity|].
    assert (NC : c <> n) by (intros ->; tauto).
    apply KEEP; cbn [mem cbs libc log]; try assumption; try tauto; eauto.
    + eapply wf_upd; eassumption.
    + destruct (Nat.eq_dec n 1) as [->|N1']; [|rewrite hupd_other by congruence; eauto]. rewrite hupd_same. rewrite Hd in CN. exists c. congruence.
    + eapply chain_upd_prev; eassumption.
    + left. unfold nodes. now rewrite AT.
    + unfold tinv. cbn [at_ todo mem cbs libc]. exists (fn, data), r. repeat split; try assumption. unfold cell. rewrite hupd_other by assumption. exact Tc.
    + intros x I. split; [|reflexivity]. apply hupd_other. destruct (DP x I). destruct Tn; congruence.
    + destruct pub as [|d pub']; [exact Logic.I|]. destruct (Nat.eq_dec n d) as [->|ND].
      * right. apply Exists_app. right. left. reflexivity.
      * rewrite hupd_other by congruence. destruct Fi as [F|F]; [now left|]. right. apply Exists_app in F. apply Exists_app. destruct F as [F|F]; [now left|]. right. apply Exists_cons in F. apply Exists_cons. destruct F as [F|F]; [|now right]. unfold late in F. rewrite AT in F. tauto.
  - (* Link2 *)
    destruct T as (v & q & Tv & _ & (k & Tc) & Tl & Tb & Tn & TA). assert (v = (fn, data)) by congruence. subst v. destruct (DJ c) as (D1 & D2 & D3); [unfold nodes; now rewrite AT|]. destruct k as [p k].
    rewrite (set_next_ok _ _ _ _ n Tc). cbn [obind]. rewrite U. eexists _, pub, vals. split; [reflexivity|].
    apply KEEP; cbn [mem cbs libc log]; try assumption; try tauto; eauto.
    + eapply wf_upd; eassumption.
    + rewrite hupd_other by congruence. eauto.
    + now apply chain_upd_other.
    + left. unfold nodes. now rewrite AT.
    + unfold tinv. cbn [at_ todo mem cbs libc]. exists (fn, data), r. repeat split; try assumption. exists p. apply hupd_same.
    + intros x I. split; [|reflexivity]. apply hupd_other. congruence.
    + apply FK; [intros x I; apply hupd_other; congruence|]. unfold late. rewrite AT. cbn [at_]. tauto.
  - (* Link3 *)
    destruct T as (v & q & Tv & _ & (p & Tc) & Tl & Tb & Tn & TA). assert (v = (fn, data)) by congruence. subst v. destruct (DJ c) as (D1 & D2 & D3); [unfold nodes; now rewrite AT|].
    rewrite (set_prev_ok _ _ _ _ cb_stack Tc). cbn [obind]. rewrite U. eexists _, pub, vals. split; [reflexivity|].
    apply KEEP; cbn [mem cbs libc log]; try assumption; try tauto; eauto.
    + eapply wf_upd; eassumption.
    + rewrite hupd_other by congruence. eauto.
    + now apply chain_upd_other.
    + left. unfold nodes. now rewrite AT.
    + unfold tinv. cbn [at_ todo mem cbs libc]. exists (fn, data), r. repeat split; try assumption. apply hupd_same.
    + intros x I. split; [|reflexivity]. apply hupd_other. congruence.
    + apply FK; [intros x I; apply hupd_other; congruence|]. unfold late. rewrite AT. cbn [at_]. tauto.
  - (* Link4 *)
    destruct T as (v & q & Tv & _ & Tc & Tl & Tb & Tn & TA). assert (v = (fn, data)) by congruence. subst v. destruct (DJ c) as (D1 & D2 & D3); [unfold nodes; now rewrite AT|].
    unfold cb_stack. rewrite (set_next_ok _ _ _ _ c Hd). cbn [obind]. rewrite U. eexists _, (c :: pub), ((fn, data) :: vals). split; [reflexivity|]. clear KEEP FK.
    assert (NT : nodes t = [c]) by (unfold nodes; now rewrite AT).
    assert (NF : forall x, In x (l1 ++ l2) -> nodes x <> [] -> al = false).
    { intros x Ix Nx. destruct al; [|reflexivity]. specialize (Few eq_refl). rewrite NT in Few. cbn [length] in Few. exfalso. apply Nx. destruct (nodes x) as [|y q'] eqn:Ex; [reflexivity|].
      assert (J : In y (flat_map nodes l1 ++ flat_map nodes l2)) by (rewrite <- flat_map_app; apply in_flat_map; exists x; split; [exact Ix|rewrite Ex; now left]).
      assert (Z : length (flat_map nodes l1 ++ flat_map nodes l2) = 0) by (rewrite app_length; lia). destruct (flat_map nodes l1 ++ flat_map nodes l2); [destruct J|discriminate]. }
    assert (GR : forall k, al = false -> aims al k pub -> aims al k (c :: pub)).
    { intros k E (Q & _). split; [destruct Q; [now left|right; now right]|]. rewrite E. discriminate. }
    constructor; cbn [st ths mem cbs libc log].
    + eapply wf_upd; eassumption.
    + exists hp. apply hupd_same.
    + cbn [chain]. split; [|now apply chain_upd_other]. exists 1, n. rewrite hupd_other by assumption. unfold aims. auto.
    + rewrite flat_map_app. cbn [flat_map]. unfold nodes at 2. cbn [at_ app]. rewrite NT in Nd. eapply Permutation_NoDup; [|exact Nd]. perm.
    + apply Forall_app. split; [|constructor; [exact Logic.I|]]; apply Forall_forall; intros x Ix.
      * rewrite Forall_forall in T1. apply (tinv_mono al (st w) _ pub (c :: pub)); [|intros y Iy Q; apply GR; [eapply NF; [|exact Iy]; apply in_app_iff; auto|exact Q]|intros K; exact K|exact (T1 x Ix)]. intros y Iy. split; [|reflexivity]. cbn [mem]. apply hupd_other. assert (J : In y (flat_map nodes l1 ++ flat_map nodes l2)) by (apply in_app_iff; left; apply in_flat_map; eauto). apply (DP y J).
      * rewrite Forall_forall in T2. apply (tinv_mono al (st w) _ pub (c :: pub)); [|intros y Iy Q; apply GR; [eapply NF; [|exact Iy]; apply in_app_iff; auto|exact Q]|intros K; exact K|exact (T2 x Ix)]. intros y Iy. split; [|reflexivity]. cbn [mem]. apply hupd_other. assert (J : In y (flat_map nodes l1 ++ flat_map nodes l2)) by (apply in_app_iff; right; apply in_flat_map; eauto). apply (DP y J).
    + left. exists n. now rewrite hupd_other by assumption.
    + constructor; [split; [exact Tb|exact Nf]|exact Va].
    + rewrite flat_map_app in *. cbn [flat_map todo] in *. rewrite TD in Al. rewrite <- Al. perm.
    + split; [intros _; exact Tl|exact Lz].
    + rewrite Lg. cbn [rev]. rewrite map_app. reflexivity.
    + apply Forall_app. split; [assumption|]. constructor; [exact Nr|assumption].
Qed.
Lemma run_inv al ps sched : forall w pub vals, inv al ps w pub vals -> (forall k w', al = true -> run w (firstn k sched) = Ok w' -> few (ths w')) -> exists w' pub' vals', run w sched = Ok w' /\ inv al ps w' pub' vals'.
Proof.
  induction sched as [|i r IH]; intros w pub vals V F; cbn [run]; [eauto 6|]. destruct (step_inv al ps w pub vals i V) as (w1 & pub1 & vals1 & E & V1); [intros A; now apply (F 0)|]. rewrite E. cbn [obind]. eapply IH; [exact V1|]. intros k w' A Rn. apply (F (Datatypes.S k)); [exact A|]. cbn [firstn run]. rewrite E. exact Rn.
Qed.
Lemma begin_inv al ps : Forall (Forall (fun v => fst v <> 0)) ps -> inv al ps (begin ps) [] [].
Proof.
  intros F. unfold begin. constructor; cbn [st ths start mem cbs libc log].
  - split; [reflexivity|]. cbn. split; [lia|]. intros a L. destruct (Nat.eqb_spec a 1); [lia|reflexivity].
  - exists 1. reflexivity.
  - exact Logic.I.
  - assert (E : flat_map nodes (map (fun p => mkthread p Idle) ps) = []) by (clear; induction ps; [reflexivity|exact IHps]). rewrite E. repeat constructor. intros [].
  - apply Forall_map. apply Forall_forall. intros. exact Logic.I.
  - exact Logic.I.
  - constructor.
  - cbn [app]. clear. induction ps; [reflexivity|]. cbn [map flat_map concat todo]. now apply Permutation_app_head.
  - split; [congruence|constructor].
  - reflexivity.
  - apply Forall_map. eapply Forall_impl; [|exact F]. auto.
Qed.

(** ** Draining *)
Lemma sub_none {A} (l : list A) : sub [] l.
Proof. induction l; constructor; assumption. Qed.
Lemma sub_front {A} (a b c : list A) : sub a b -> sub a (c ++ b).
Proof. intros H. induction c; [exact H|]. cbn [app]. now constructor. Qed.
Lemma sub_perm {A} (a b : list A) : sub a b -> exists r, Permutation (a ++ r) b.
Proof.
  induction 1 as [|x a b _ (r & IH)|x a b _ (r & IH)].
  - exists []. reflexivity.
  - exists r. cbn [app]. now constructor.
  - exists (x :: r). rewrite <- IH. perm.
Qed.
Definition nothing (f d : nat) : list action := [].
Lemma drain al : forall n fuel s pub vals x, length pub <= n -> n < fuel ->
  cells (mem s) 0 = None -> (exists p, cells (mem s) 1 = Some (mklink p x)) -> chain al (mem s) pub -> NoDup (1 :: pub) -> (x = 1 \/ In x pub /\ exists k, cells (mem s) x = Some (mklink 1 k)) ->
  Forall2 (fun c v => cbs s c = Some v /\ fst v <> 0) pub vals ->
  exists s' called, atexit_call fuel nothing s = Ok s' /\ libc s' = libc s /\ log s' = log s ++ map (fun v => Call (fst v) (snd v)) called /\ sub called vals /\
    (exists p, cells (mem s') 1 = Some (mklink p 1)) /\ (x <> 1 -> exists v, cbs s x = Some v /\ hd_error called = Some v) /\
    (x = match pub with [] => 1 | c :: _ => c end -> al = true -> called = vals).
Proof.
  induction n as [|n IH]; intros fuel s pub vals x Ln Lf C0 (p & Hd) Ch Nd Fx Va.
  - destruct pub; [|cbn in Ln; lia]. inversion Va; subst. destruct Fx as [->|([] & _)]. destruct fuel as [|fuel]; [lia|]. exists s, []. cbn [atexit_call]. unfold stack_empty, elist_empty, cb_stack. rewrite (get_next_ok _ _ _ _ Hd). cbn [obind Nat.eqb]. rewrite app_nil_r. repeat split; eauto; [constructor|congruence].
  - destruct fuel as [|fuel]; [lia|]. cbn [atexit_call]. unfold stack_empty, elist_empty, cb_stack. rewrite (get_next_ok _ _ _ _ Hd). cbn [obind].
    destruct (Nat.eqb_spec x 1) as [->|Nx].
    + exists s, []. rewrite app_nil_r. repeat split; eauto; try congruence; [apply sub_none|]. intros E _. destruct pub as [|c pub']; [inversion Va; subst; reflexivity|]. exfalso. inversion Nd as [|? ? X _]; subst. apply X. now left.
    + destruct Fx as [?|(I & k & Cx)]; [contradiction|]. apply in_split in I. destruct I as (l1 & l2 & ->).
      apply Forall2_app_inv_l in Va. destruct Va as (v1 & v2 & F1 & F2 & ->). inversion F2 as [|? v ? v2' (Cv & Vn) F2' E1 E2]; subst.
      assert (C2 : chain al (mem s) (x :: l2)). { clear -Ch. induction l1 as [|c l1 IH]; [exact Ch|]. apply IH. apply Ch. }
      destruct C2 as ((p' & k' & Cx' & K & KA) & C2). assert (k' = k) by congruence. subst k'.
      assert (Nd2 : NoDup (x :: 1 :: l2)). { assert (NN : NoDup (x :: 1 :: l1 ++ l2)) by (eapply Permutation_NoDup; [|exact Nd]; perm). inversion NN as [|? ? A B]; subst. inversion B as [|? ? A' B']; subst. constructor; [intros [E|I]; apply A; [now left|right; apply in_app_iff; now right]|]. constructor; [intros I; apply A'; apply in_app_iff; now right|]. clear -B'. induction l1 as [|a l1 IH]; [exact B'|]. inversion B'; auto. }
      inversion Nd2 as [|? ? Nx2 Nd3]; subst. inversion Nd3 as [|? ? N1 Nl2]; subst. cbn [In] in Nx2.
      unfold stack_pop. unfold stack_empty, elist_empty. rewrite (get_next_ok _ _ _ _ Hd). cbn [obind].
      assert (EX : (x =? 1) = false) by now apply Nat.eqb_neq. rewrite EX. cbn [obind].
      unfold elist_remove. unfold get_prev. rewrite (load_ok _ _ _ Cx). cbn [obind prev]. rewrite (get_next_ok _ _ _ _ Cx). cbn [obind]. unfold elist_remove2.
      assert (CK : exists q j, cells (mem s) k = Some (mklink q j)). { destruct K as [->|I]; [eauto|]. eapply chain_cell; eassumption. }
      destruct CK as (q & j & CK). rewrite (set_prev_ok _ _ _ _ 1 CK). cbn [obind].
      assert (Kx : k <> x) by (intros ->; tauto).
      assert (H1 : exists q', cells (hupd (mem s) k (mklink 1 j)) 1 = Some (mklink q' x)). { destruct (Nat.eq_dec 1 k) as [<-|N]; [rewrite hupd_same; rewrite Hd in CK; exists 1; congruence|rewrite hupd_other by exact N; eauto]. }
      destruct H1 as (q' & H1). rewrite (set_next_ok _ _ _ _ k H1). cbn [obind]. rewrite Cv. destruct v as [fn data]. cbn [fst] in Vn.
      assert (G : negb (fn =? 0) = true) by (apply negb_true_iff, Nat.eqb_neq; exact Vn).
      destruct (Nat.eqb_spec x 0) as [Z|NZ].
      { subst x. congruence. }
      rewrite G. cbn [negb andb]. unfold nothing at 1. cbn [acts obind mem cbs libc log].
      assert (CX : cells (hupd (hupd (mem s) k (mklink 1 j)) 1 (mklink q' k)) x = Some (mklink 1 k)) by (rewrite !hupd_other by congruence; exact Cx).
      unfold release. rewrite CX. cbn [obind].
      match goal with |- context [atexit_call fuel nothing ?s0] => set (s1 := s0) end.
      assert (CO : forall c, c <> x -> c <> 1 -> c <> k -> cells (mem s1) c = cells (mem s) c). { intros c A B C. unfold s1. cbn [mem cells]. apply Nat.eqb_neq in A, B, C. rewrite A. cbn [hupd cells]. now rewrite B, C. }
      assert (CKK : k <> 1 -> cells (mem s1) k = Some (mklink 1 j)). { intros A. unfold s1. cbn [mem cells]. apply Nat.eqb_neq in Kx. rewrite Kx. rewrite hupd_other by assumption. apply hupd_same. }
      destruct (IH fuel s1 l2 v2' k) as (s' & called & E & Lb & Lg & Pm & He & Hh & Al).
      * rewrite app_length in Ln. cbn [length] in Ln. lia.
      * lia.
      * unfold s1. cbn [mem cells]. destruct (Nat.eqb_spec 0 x); [reflexivity|]. rewrite !hupd_other; [exact C0|intros E0; rewrite <- E0 in CK; congruence|discriminate].
      * exists q'. unfold s1. cbn [mem cells]. destruct (Nat.eqb_spec 1 x); [congruence|]. apply hupd_same.
      * eapply chain_same; [exact C2|]. intros c a b I E. destruct (Nat.eq_dec c k) as [->|N]; [rewrite CKK by (intros ->; contradiction); rewrite CK in E; exists 1; congruence|]. rewrite CO; [eauto|intros ->; tauto|intros ->; contradiction|assumption].
      * exact Nd3.
      * destruct K as [->|I]; [now left|]. right. split; [exact I|]. exists j. apply CKK. intros ->. contradiction.
      * clear -F2' Nx2. assert (Q : ~ In x l2) by tauto. clear Nx2. induction F2' as [|c v l2 v2 (A & B) _ IHF]; [constructor|]. cbn [In] in Q. constructor; [|apply IHF; tauto]. unfold s1. cbn [cbs]. rewrite setc_other by (intros ->; tauto). tauto.
      * rewrite E. exists s', ((fn, data) :: called). unfold s1 in Lb, Lg. cbn [libc log] in Lb, Lg. split; [reflexivity|]. split; [exact Lb|]. split; [rewrite Lg, <- app_assoc; reflexivity|]. split; [|split; [exact He|split]].
        -- apply sub_front. now constructor.
        -- intros _. exists (fn, data). split; reflexivity.
        -- intros Ef Al2. destruct l1 as [|c l1].
           ++ inversion F1; subst. cbn [app]. f_equal. apply Al; [now apply KA|reflexivity].
           ++ exfalso. cbn [app] in Ef. subst c. inversion Nd as [|? ? _ B]; subst. cbn [app] in B. inversion B as [|? ? B1 _]; subst. apply B1. apply in_app_iff. right. now left.
Qed.

Lemma exit_empty : forall l fuel s p, length l < fuel -> libc s = l -> Forall (fun h => h = Hzt) l -> cells (mem s) 1 = Some (mklink p 1) ->
  exists s', exit_run fuel nothing (fun _ => []) s = Ok s' /\ log s' = log s /\ libc s' = [] /\ mem s' = mem s.
Proof.
  induction l as [|h l IH]; intros fuel s p Lf L F Hd; (destruct fuel as [|fuel]; [cbn in Lf; lia|]); cbn [exit_run]; rewrite L; [eauto|].
  apply Forall_cons_iff in F. destruct F as (-> & F). destruct fuel as [|fuel]; [cbn [length] in Lf; lia|].
  cbn [atexit_call]. unfold stack_empty, elist_empty, cb_stack. cbn [mem]. rewrite (get_next_ok _ _ _ _ Hd). cbn [obind Nat.eqb].
  destruct (IH (Datatypes.S fuel) (mkstate (mem s) (cbs s) l (log s)) p) as (s' & A & B & C & D); [cbn [length] in Lf; lia|reflexivity|exact F|exact Hd|]. exists s'. auto.
Qed.
Lemma done_nodes l : Forall (fun t => todo t = []) l -> forall al s pub, Forall (tinv al s pub) l -> flat_map nodes l = [] /\ flat_map todo l = [] /\ forall c, ~ Exists (late c) l.
Proof.
  intros D al s pub T. assert (K : Forall (fun t => at_ t = Idle /\ todo t = []) l).
  { apply Forall_forall. intros t I. rewrite Forall_forall in D, T. specialize (D t I). specialize (T t I). split; [|exact D]. unfold tinv in T. destruct (at_ t); [reflexivity|..]; destruct T as (v & r & X & _); congruence. }
  clear D T. induction K as [|t l (A & B) _ (I1 & I2 & I3)]; [repeat split; intros c X; inversion X|]. cbn [flat_map]. rewrite I1, I2, B. unfold nodes. rewrite A. repeat split. intros c X. apply Exists_cons in X. unfold late at 1 in X. rewrite A in X. destruct X as [[]|X]. now apply I3 in X.
Qed.
Lemma exits_ok al ps w pub vals : inv al ps w pub vals -> Forall (fun t => todo t = []) (ths w) ->
  forall fuel, length pub + length (libc (st w)) + 1 < fuel -> exists s called, exits fuel (st w) = Ok s /\ log s = map ev (rev vals) ++ map (fun v => Call (fst v) (snd v)) called /\ sub called vals /\
    Permutation vals (concat ps) /\ hd_error called = hd_error vals /\ (al = true -> called = vals) /\ libc s = [].
Proof.
  intros V D fuel Lf. destruct V as [Wf (hp & Hd) Ch Nd Th Fi Va Al (Lb & Lz) Lg Nu]. destruct (done_nodes _ D _ _ _ Th) as (D1 & D2 & D3). rewrite D2, app_nil_r in Al. rewrite D1, app_nil_r in Nd.
  destruct fuel as [|fuel]; [lia|]. unfold exits. fold nothing. cbn [exit_run]. destruct (libc (st w)) as [|h l] eqn:LE.
  - assert (pub = []) by (destruct pub; [reflexivity|exfalso; apply Lb; [discriminate|reflexivity]]). subst pub. inversion Va; subst vals. exists (st w), []. cbn [map app rev] in *. rewrite Lg. repeat split; auto. constructor.
  - apply Forall_cons_iff in Lz. destruct Lz as (-> & Lz). cbn [length] in Lf.
    destruct (drain al (length pub) fuel (mkstate (mem (st w)) (cbs (st w)) l (log (st w))) pub vals (match pub with [] => 1 | c :: _ => c end)) as (s' & called & E & L' & Lg' & Sb & (p & He) & Hh & Ac); cbn [mem cbs libc log]; eauto; [lia|exact (proj1 Wf)|destruct pub as [|c pub']; [now left|right; split; [now left|]]|].
    + destruct Fi as [F|F]; [exact F|now apply D3 in F].
    + rewrite E. cbn [obind]. cbn [libc] in L'. destruct (exit_empty l fuel s' p) as (s2 & E2 & Lg2 & Lb2 & _); try assumption; [lia|].
      exists s2, called. split; [exact E2|]. split; [rewrite Lg2, Lg'; cbn [log]; now rewrite Lg|]. split; [exact Sb|]. split; [exact Al|]. split; [|split; [|exact Lb2]].
      * destruct pub as [|c pub']; [inversion Va; subst; inversion Sb; reflexivity|]. destruct Hh as (v & Ev & Hv); [inversion Nd as [|? ? X _]; subst; intros ->; apply X; now left|]. inversion Va as [|? v' ? ? (Ev' & _)]; subst. rewrite Hv. cbn [hd_error]. cbn [cbs] in Ev. congruence.
      * intros A. now apply Ac.
Qed.

(** ** Progress *)
Lemma nth_upd_same {A} (l : list A) i a x : nth_error l i = Some a -> nth_error (upd l i x) i = Some x.
Proof. revert i. induction l; intros [|i] H; try discriminate; cbn [upd nth_error] in *; [reflexivity|auto]. Qed.
Lemma nth_upd_other {A} (l : list A) i j x : i <> j -> nth_error (upd l i x) j = nth_error l j.
Proof. revert i j. induction l; intros [|i] [|j] H; cbn [upd nth_error]; try reflexivity; try congruence. apply IHl. congruence. Qed.
Definition rank (a : pc) : nat := match a with Idle => 0 | Check _ => 1 | Register _ => 2 | Read _ => 3 | Link1 _ _ => 4 | Link2 _ _ => 5 | Link3 _ _ => 6 | Link4 _ _ => 7 end.
Definition left_ (t : thread) : nat := match todo t with [] => 0 | _ => 8 * length (todo t) - rank (at_ t) end.
Lemma left_step s t s' t' : tstep s t = Ok (s', t') -> left_ t' <= left_ t - 1.
Proof.
  unfold tstep, left_. destruct t as [[|[fn data] r] a]; cbn [todo at_]; [intros E; assert (t' = mkthread [] a) by congruence; subst; cbn; lia|].
  destruct a as [|c|c|c|c n|c n|c n|c n]; intros E.
  1: apply obind_ok in E; destruct E as (? & _ & E); cbn [alloc] in E.
  2, 4, 5, 6, 7, 8: apply obind_ok in E; destruct E as (x & _ & E).
  all: assert (X : t' = snd (s', t')) by reflexivity; rewrite X; clear X.
  all: match type of E with Ok ?p = Ok _ => assert (X : (s', t') = p) by congruence; rewrite X; clear X E end; cbn [snd todo at_ rank length].
  all: try lia.
  - destruct x; cbn [rank]; lia.
  - destruct r; cbn [length]; lia.
Qed.
Lemma left_run : forall sched w w', run w sched = Ok w' -> length (ths w') = length (ths w) /\ forall i t, nth_error (ths w) i = Some t -> exists t', nth_error (ths w') i = Some t' /\ left_ t' <= left_ t - count_occ Nat.eq_dec sched i.
Proof.
  induction sched as [|j r IH]; intros w w' E; cbn [run] in E; [assert (w' = w) by congruence; subst; split; [reflexivity|]; intros i t N; exists t; split; [exact N|cbn [count_occ]; lia]|].
  apply obind_ok in E. destruct E as (w1 & E1 & E). destruct (IH _ _ E) as (L & H). unfold step in E1. destruct (nth_error (ths w) j) as [tj|] eqn:Nj.
  - apply obind_ok in E1. destruct E1 as ((s1 & t1) & E1 & E2). assert (w1 = mkworld s1 (upd (ths w) j t1)) by congruence. subst w1. cbn [ths] in *. rewrite upd_length in L. split; [exact L|]. apply left_step in E1. intros i t N. cbn [count_occ]. destruct (Nat.eq_dec j i) as [->|Ne].
    + destruct (H i t1) as (t' & A & B); [rewrite (nth_upd_same _ _ _ _ Nj); reflexivity|]. exists t'. split; [exact A|]. assert (t = tj) by congruence. subst. lia.
    + destruct (H i t) as (t' & A & B); [rewrite nth_upd_other by congruence; exact N|]. eauto.
  - assert (w1 = w) by congruence. subst. split; [exact L|]. intros i t N. cbn [count_occ]. destruct (Nat.eq_dec j i) as [->|Ne]; [congruence|]. now apply H.
Qed.
