(** The invariant of zt_log used by several threads that only print and install loggers. *)
From Verif Require Import Prelude Heap CstrModel LogModel LogSpec LogProofs LraceModel LraceSpec LraceProofs.
From Coq Require Import Permutation.
Local Open Scope Z_scope.

Section Calm.
Variables (e : env) (g0 : shared) (ps : list (list op)).
Hypothesis He : env_ok e.
Hypothesis Hp : env_plain e.
Hypothesis H0 : fresh_start g0.
Hypothesis HC : forall p o, In p ps -> In o p -> calm (lgs g0) o.

Definition h1 : heap logger := snd (alloc (lgs g0) made).
Definition new : nat := fresh (lgs g0).
Definition ext (h h' : heap logger) : Prop := forall q l, cells h q = Some l -> cells h' q = Some l.
Lemma ext_refl h : ext h h.
Proof. now intros q l. Qed.
Lemma ext_new : ext (lgs g0) h1.
Proof. intros q l H. cbn [h1 alloc snd cells]. destruct (Nat.eqb_spec q (fresh (lgs g0))) as [->|]; [|exact H]. destruct H0 as (W & _). now rewrite (wf_fresh _ W) in H. Qed.
Lemma new_pos : new <> 0%nat.
Proof. destruct H0 as ((_ & W & _) & _). unfold new. lia. Qed.
Lemma new_live : cells h1 new = Some made.
Proof. cbn [h1 alloc snd cells]. unfold new. now rewrite Nat.eqb_refl. Qed.
Definition dfl := default_at_some_time g0 ps.
(** the debug information a message will be shown with *)
Definition fits (c : dbg) (d : option dbg) : Prop := dbg_ok c /\ dbg_plain c /\ suffix c = suffix (match d with Some d => d | None => mkdbg None (-1) None end).
Definition local (g : shared) (t : thread) : Prop :=
  match at_ t with
  | Idle => fits (context t) None
  | Get0 (ForPrint level fmt args) | Get1 (ForPrint level fmt args) | Get2 (ForPrint level fmt args) | Get3 (ForPrint level fmt args) | Get4 (ForPrint level fmt args) | Get5 (ForPrint level fmt args) =>
      exists d r, todo t = Print 0 d level fmt args :: r /\ fits (context t) d
  | Get6 (ForPrint level fmt args) => (exists d r, todo t = Print 0 d level fmt args :: r /\ fits (context t) d) /\ dflt g <> 0%nat
  | Set1 p None | Set2 p None | Set3 p _ None | Set4 p _ None => p <> 0%nat /\ fits (context t) None /\ exists r, todo t = Logger p :: r
  | Pr1 p level fmt args | Pr2 p level fmt args => cells (lgs g) p <> None /\ exists log d r, todo t = Print log d level fmt args :: r /\ fits (context t) d /\ (if (log =? 0)%nat then dfl p else p = log)
  | _ => False
  end.
Definition held (g : shared) (c : pc) : Prop :=
  match c with
  | Get3 _ => dflt g = 0%nat
  | Get4 _ => dflt g = new /\ lgs g = h1 /\ exits g = exits g0
  | Get5 _ => dflt g <> 0%nat
  | Set3 _ last _ => dflt g = last
  | _ => True
  end.
Definition getting (c : pc) : bool := match c with Get4 _ => true | _ => false end.
Definition glob (w : world) : Prop :=
  let g := gl w in
  (dflt g = 0%nat \/ dfl (dflt g) /\ cells (lgs g) (dflt g) <> None) /\
  ((lgs g = lgs g0 /\ exits g = exits g0 /\ (dflt g = 0%nat -> dflt g0 = 0%nat)) \/
   (dflt g0 = 0%nat /\ lgs g = h1 /\ dflt g <> 0%nat /\ (exits g = new :: exits g0 \/ exits g = exits g0 /\ exists j t, nth_error (ths w) j = Some t /\ getting (at_ t) = true))).
(** the loggers a thread has installed, and taken over *)
Definition gave (t : thread) : list nat := installs (ran t) ++ match at_ t with Set4 p _ _ => [p] | _ => [] end.
Definition took (t : thread) : list nat := got t ++ match at_ t with Set4 _ last _ => [last] | _ => [] end.
Definition cnt (x : nat) (l : list nat) : nat := count_occ Nat.eq_dec l x.
Definition sum (x : nat) (f : thread -> list nat) (l : list thread) : nat := list_sum (map (fun t => cnt x (f t)) l).
Definition extra (x : nat) (h : heap logger) : nat := if (fresh h =? fresh (lgs g0))%nat then 0 else cnt x [new].
Record inv (w : world) : Prop := mkinv {
  i_mut : minv w;
  i_loc : forall j t, nth_error (ths w) j = Some t -> local (gl w) t;
  i_held : forall j t, nth_error (ths w) j = Some t -> held (gl w) (at_ t);
  i_glob : glob w;
  i_out : forall j t, nth_error (ths w) j = Some t -> prints e (lgs (gl w)) dfl (ran t) (by_thread j (out (gl w)));
  i_prog : map (fun t => ran t ++ todo t) (ths w) = ps;
  i_cnt : forall x, x <> 0%nat -> (cnt x [dflt (gl w)] + sum x took (ths w) = cnt x [dflt g0] + sum x gave (ths w) + extra x (lgs (gl w)))%nat }.

Lemma sum_upd x f : forall l i t t', nth_error l i = Some t -> (sum x f (upd l i t') + cnt x (f t) = sum x f l + cnt x (f t'))%nat.
Proof.
  unfold sum. induction l as [|y l IH]; intros [|i] t t' N; cbn [nth_error] in N; try discriminate.
  - assert (y = t) by congruence. subst. cbn [upd map list_sum fold_right]. lia.
  - specialize (IH i t t' N). unfold list_sum in *. cbn [upd map fold_right]. lia.
Qed.
Lemma cnt_app x a b : cnt x (a ++ b) = (cnt x a + cnt x b)%nat.
Proof. apply count_occ_app. Qed.
Lemma prints_ext h h' l o : ext h h' -> prints e h dfl l o -> prints e h' dfl l o.
Proof.
  intros X. induction 1; [apply Pr_none|now apply Pr_logger|eapply Pr_below; eauto|eapply Pr_shown; eauto].
Qed.
Lemma prog_upd l i t t' : nth_error l i = Some t -> ran t' ++ todo t' = ran t ++ todo t -> map (fun t => ran t ++ todo t) (upd l i t') = map (fun t => ran t ++ todo t) l.
Proof.
  revert i. induction l as [|y l IH]; intros [|i] N E; cbn [nth_error] in N; try discriminate; cbn [upd map]; [assert (y = t) by congruence; subst; now rewrite E|]. f_equal. now apply IH.
Qed.
Lemma finish_prog t l : ran (finish t l) ++ todo (finish t l) = ran t ++ todo t.
Proof. cbn [finish ran todo]. rewrite <- app_assoc. f_equal. now destruct (todo t). Qed.

(** One step of thread [i] that changes neither the loggers nor the default one *)
Definition mild (g g' : shared) : Prop := lgs g' = lgs g /\ dflt g' = dflt g /\ exits g' = exits g.
Lemma local_ext g g' t : ext (lgs g) (lgs g') -> (dflt g <> 0%nat -> dflt g' <> 0%nat) -> local g t -> local g' t.
Proof.
  intros X D. unfold local. assert (L : forall p, cells (lgs g) p <> None -> cells (lgs g') p <> None) by (intros p H; destruct (cells (lgs g) p) as [l|] eqn:E; [rewrite (X _ _ E); discriminate|congruence]).
  destruct (at_ t) as [|w|w|w|w|w|w|w|p c|p c|p last c|p last c|p level fmt args|p level fmt args|p]; try tauto; try (destruct w; tauto).
  - intros [A B]. split; [now apply L|exact B].
  - intros [A B]. split; [now apply L|exact B].
Qed.
Lemma member w i t : inv w -> nth_error (ths w) i = Some t -> In (ran t ++ todo t) ps.
Proof. intros I N. rewrite <- (i_prog _ I). apply nth_error_In in N. exact (in_map (fun t => ran t ++ todo t) _ _ N). Qed.
Lemma calm_head w i t o r : inv w -> nth_error (ths w) i = Some t -> todo t = o :: r -> calm (lgs g0) o.
Proof. intros I N T. apply (HC _ o (member _ _ _ I N)). apply in_or_app. right. rewrite T. now left. Qed.
Lemma heap_ext w : inv w -> ext (lgs g0) (lgs (gl w)).
Proof. intros I. destruct (proj2 (i_glob _ I)) as [(-> & _)|(_ & -> & _)]; [apply ext_refl|apply ext_new]. Qed.

(** the general step: [t'] replaces thread [i] *)
Lemma inv_step w i t g' t' : inv w -> nth_error (ths w) i = Some t -> tstep e i (gl w) t = Ok (Some (g', t')) ->
  ext (lgs (gl w)) (lgs g') -> (dflt (gl w) <> 0%nat -> dflt g' <> 0%nat) -> (mild (gl w) g' \/ locked (at_ t) = true) ->
  local g' t' -> held g' (at_ t') -> glob (mkworld g' (upd (ths w) i t')) ->
  (exists o, out g' = out (gl w) ++ map (fun x => (i, x)) o /\ prints e (lgs g') dfl (ran t') (by_thread i (out (gl w)) ++ o)) ->
  ran t' ++ todo t' = ran t ++ todo t ->
  (forall x, x <> 0%nat -> (cnt x [dflt g'] + cnt x (took t') + cnt x (gave t) + extra x (lgs (gl w)) = cnt x [dflt (gl w)] + cnt x (took t) + cnt x (gave t') + extra x (lgs g'))%nat) ->
  inv (mkworld g' (upd (ths w) i t')).
Proof.
  intros I N S X D M L Hh G (o & O1 & O2) P C. pose proof (i_mut _ I) as Mi. constructor; cbn [gl ths].
  - exact (minv_step _ _ _ _ _ _ Mi N S).
  - intros j y. rewrite (nth_upd _ _ _ _ _ N). destruct (j =? i)%nat; [intros E; assert (y = t') by congruence; now subst|]. intros Ny. apply (local_ext (gl w)); [assumption..|]. exact (i_loc _ I j y Ny).
  - intros j y. rewrite (nth_upd _ _ _ _ _ N). destruct (Nat.eqb_spec j i) as [->|NE]; [intros E; assert (y = t') by congruence; now subst|]. intros Ny.
    destruct M as [(M1 & M2 & M3)|M]; [pose proof (i_held _ I j y Ny) as K; unfold held in *; destruct (at_ y); rewrite ?M1, ?M2, ?M3; exact K|].
    destruct (locked (at_ y)) eqn:Ly; [pose proof (m_lock _ Mi j y Ny Ly); pose proof (m_lock _ Mi i t N M); congruence|]. unfold held. destruct (at_ y); try exact Logic.I; discriminate.
  - exact G.
  - intros j y. rewrite (nth_upd _ _ _ _ _ N), O1. unfold by_thread. rewrite filter_app, map_app.
    assert (F : forall k, map snd (filter (fun z : nat * (nat * text) => (fst z =? k)%nat) (map (fun z => (i, z)) o)) = if (k =? i)%nat then o else []).
    { intros k. clear. induction o as [|z o IH]; cbn [map filter fst]; [now destruct (k =? i)%nat|]. rewrite (Nat.eqb_sym i k). destruct (k =? i)%nat; cbn [map snd]; [f_equal; exact IH|exact IH]. }
    rewrite F. destruct (Nat.eqb_spec j i) as [->|NE]; [intros E; assert (y = t') by congruence; subst; exact O2|]. rewrite app_nil_r. intros Ny. exact (prints_ext _ _ _ _ X (i_out _ I j y Ny)).
  - rewrite (prog_upd _ _ _ _ N P). exact (i_prog _ I).
  - intros x Hx. pose proof (i_cnt _ I x Hx). specialize (C x Hx). pose proof (sum_upd x took _ _ _ t' N). pose proof (sum_upd x gave _ _ _ t' N). lia.
Qed.
(** a step that changes only the mutex and the thread, printing nothing *)
Lemma inv_mild w i t g' t' : inv w -> nth_error (ths w) i = Some t -> tstep e i (gl w) t = Ok (Some (g', t')) -> mild (gl w) g' -> out g' = out (gl w) -> getting (at_ t) = false ->
  local g' t' -> held g' (at_ t') -> prints e (lgs (gl w)) dfl (ran t') (by_thread i (out (gl w))) -> ran t' ++ todo t' = ran t ++ todo t ->
  (forall x, x <> 0%nat -> (cnt x (took t') + cnt x (gave t) = cnt x (took t) + cnt x (gave t'))%nat) -> inv (mkworld g' (upd (ths w) i t')).
Proof.
  intros I N S M O G L Hh Pr P C. pose proof M as (M1 & M2 & M3). apply (inv_step w i t); try assumption.
  - rewrite M1. apply ext_refl.
  - now rewrite M2.
  - now left.
  - destruct (i_glob _ I) as [A B]. unfold glob. cbn [gl ths]. rewrite M1, M2, M3. split; [exact A|]. destruct B as [B|(B1 & B2 & B3 & B4)]; [now left|]. right. repeat split; try assumption. destruct B4 as [B4|(B4 & j & y & Ny & Gy)]; [now left|]. right. split; [exact B4|].
    exists j, y. rewrite (nth_upd _ _ _ _ _ N). destruct (Nat.eqb_spec j i) as [->|]; [|now split]. assert (y = t) by congruence. subst. congruence.
  - exists []. cbn [map]. rewrite !app_nil_r, M1. now split.
  - intros x Hx. rewrite M1, M2. specialize (C x Hx). lia.
Qed.
Lemma took_go t c : (forall p l d, at_ t <> Set4 p l d) -> (forall p l d, c <> Set4 p l d) -> took (go t c) = took t /\ gave (go t c) = gave t.
Proof. intros A B. unfold took, gave. cbn [go got ran at_]. destruct (at_ t); try (exfalso; eapply A; reflexivity); destruct c; try (exfalso; eapply B; reflexivity); split; reflexivity. Qed.
Lemma fits_none : fits no_dbg None.
Proof. repeat split; unfold dbg_ok, no_dbg, plain; cbn [d_line d_file d_func]; try lia; intros []. Qed.
Lemma fits_start : fits (mkdbg None 0 None) None.
Proof. repeat split; unfold dbg_ok, plain; cbn [d_line d_file d_func]; try lia; intros []. Qed.
Lemma installs_app a b : installs (a ++ b) = installs a ++ installs b.
Proof. apply flat_map_app. Qed.
Ltac same_counts := intros x Hx; unfold took, gave; cbn [go set_info finish got ran at_];
  repeat match goal with E : at_ _ = _ |- _ => rewrite E end; rewrite ?app_nil_r, ?cnt_app; cbn [cnt count_occ]; try reflexivity; try lia.
Ltac mildly := split; [reflexivity|split; reflexivity].

Lemma inv_next w i t : inv w -> nth_error (ths w) i = Some t ->
  exists r, tstep e i (gl w) t = Ok r /\ (r = None \/ exists g' t', r = Some (g', t') /\ inv (mkworld g' (upd (ths w) i t'))).
Proof.
  intros I N. pose proof (i_loc _ I _ _ N) as L. pose proof (i_held _ I _ _ N) as Hh. pose proof (i_out _ I _ _ N) as PO. pose proof (i_glob _ I) as [GD GC].
  (* it is enough to name the step *)
  assert (K : forall g' t', tstep e i (gl w) t = Ok (Some (g', t')) -> (tstep e i (gl w) t = Ok (Some (g', t')) -> inv (mkworld g' (upd (ths w) i t'))) ->
     exists r, tstep e i (gl w) t = Ok r /\ (r = None \/ exists g' t', r = Some (g', t') /\ inv (mkworld g' (upd (ths w) i t')))).
  { intros g' t' S Q. exists (Some (g', t')). split; [exact S|]. right. exists g', t'. split; [reflexivity|]. now apply Q. }
  destruct (at_ t) as [|[level fmt args|]|[level fmt args|]|[level fmt args|]|[level fmt args|]|[level fmt args|]|[level fmt args|]|[level fmt args|]|p [c|]|p [c|]|p last [c|]|p last [c|]|p level fmt args|p level fmt args|p] eqn:E;
    unfold local in L; rewrite E in L; try contradiction.
  - (* Idle *)
    destruct (todo t) as [|[log d level fmt args|log|log] r] eqn:T.
    + exists None. unfold tstep. rewrite E, T. auto.
    + pose proof (calm_head _ _ _ _ _ I N T) as (C1 & C2 & C3 & C4).
      apply (K (gl w) (go (match d with Some d => set_info t d | None => t end) (if (log =? 0)%nat then Get0 (ForPrint level fmt args) else Pr1 log level fmt args))); [unfold tstep; rewrite E, T; reflexivity|].
      intros S. assert (F : fits (context (match d with Some d => set_info t d | None => t end)) d) by (destruct d as [d|]; [destruct C4; split; [assumption|]; split; [assumption|reflexivity]|exact L]).
      assert (TT : todo (match d with Some d => set_info t d | None => t end) = Print log d level fmt args :: r) by (destruct d; exact T).
      assert (RR : ran (match d with Some d => set_info t d | None => t end) = ran t) by (destruct d; reflexivity).
      assert (GG : got (match d with Some d => set_info t d | None => t end) = got t) by (destruct d; reflexivity).
      apply (inv_mild w i t); try assumption; try mildly; try reflexivity.
      * now rewrite E.
      * unfold local. cbn [go at_ todo]. destruct (Nat.eqb_spec log 0) as [->|NZ]; cbn [at_].
        -- exists d, r. split; [exact TT|]. exact F.
        -- split; [destruct C1 as [C1|C1]; [congruence|]; destruct (cells (lgs g0) log) as [lg|] eqn:CL; [|congruence]; rewrite (heap_ext _ I _ _ CL); discriminate|]. exists log, d, r. split; [exact TT|]. split; [exact F|]. apply Nat.eqb_neq in NZ. now rewrite NZ.
      * unfold held. cbn [go at_]. now destruct (log =? 0)%nat.
      * cbn [go ran]. now rewrite RR.
      * cbn [go ran todo]. now rewrite RR, TT, T.
      * intros x Hx. unfold took, gave. cbn [go got ran at_]. rewrite RR, GG, E. destruct (log =? 0)%nat; lia.
    + pose proof (calm_head _ _ _ _ _ I N T) as C. cbn [calm] in C. assert (NZ : log <> 0%nat). { intros ->. destruct H0 as ((W & _) & _). now rewrite W in C. }
      pose proof NZ as NZ'. apply Nat.eqb_neq in NZ'.
      apply (K (gl w) (go t (Set1 log None))); [unfold tstep; rewrite E, T, NZ'; reflexivity|]. intros S. apply (inv_mild w i t); try assumption; try mildly; try reflexivity.
      * now rewrite E.
      * unfold local. cbn [go at_ todo]. split; [exact NZ|]. split; [exact L|]. now exists r.
      * same_counts.
    + exfalso. exact (calm_head _ _ _ _ _ I N T).
  - (* Get0 *)
    apply (K (gl w) (go t (if (dflt (gl w) =? 0)%nat then Get1 (ForPrint level fmt args) else Get6 (ForPrint level fmt args)))); [unfold tstep; now rewrite E|]. intros S.
    apply (inv_mild w i t); try assumption; try mildly; try reflexivity.
    * now rewrite E.
    * unfold local. cbn [go at_ todo]. destruct (Nat.eqb_spec (dflt (gl w)) 0) as [Z|NZ]; [exact L|]. split; [exact L|exact NZ].
    * unfold held. cbn [go at_]. now destruct (_ =? _)%nat.
    * intros x Hx. unfold took, gave. cbn [go got ran at_]. rewrite E. destruct (_ =? _)%nat; lia.
  - (* Get1 *)
    destruct (mutex (gl w)) as [m|] eqn:M; [exists None; unfold tstep; rewrite E, M; auto|].
    apply (K (set_mutex (gl w) (Some i)) (go t (Get2 (ForPrint level fmt args)))); [unfold tstep; now rewrite E, M|]. intros S.
    apply (inv_mild w i t); try assumption; try mildly; try reflexivity; [now rewrite E|same_counts].
  - (* Get2 *)
    apply (K (gl w) (go t (if (dflt (gl w) =? 0)%nat then Get3 (ForPrint level fmt args) else Get5 (ForPrint level fmt args)))); [unfold tstep; now rewrite E|]. intros S.
    apply (inv_mild w i t); try assumption; try mildly; try reflexivity.
    * now rewrite E.
    * unfold local. cbn [go at_ todo]. destruct (Nat.eqb_spec (dflt (gl w)) 0) as [Z|NZ]; exact L.
    * unfold held. cbn [go at_]. destruct (Nat.eqb_spec (dflt (gl w)) 0) as [Z|NZ]; assumption.
    * intros x Hx. unfold took, gave. cbn [go got ran at_]. rewrite E. destruct (_ =? _)%nat; lia.
  - (* Get3 *)
    cbn [held] in Hh. destruct GC as [(G1 & G2 & G3)|(_ & _ & G & _)]; [|congruence]. specialize (G3 Hh).
    assert (S : tstep e i (gl w) t = Ok (Some (mkshared h1 new (mutex (gl w)) (exits (gl w)) (out (gl w)), go t (Get4 (ForPrint level fmt args))))).
    { unfold tstep. rewrite E. rewrite G1. reflexivity. }
    refine (K _ _ S _). intros _. apply (inv_step w i t); try assumption; cbn [lgs dflt exits out mutex].
    * rewrite G1. apply ext_new.
    * congruence.
    * right. now rewrite E.
    * split; [reflexivity|]. split; [reflexivity|exact G2].
    * unfold glob. cbn [gl lgs dflt exits out ths]. split.
      -- right. split; [|rewrite new_live; discriminate]. split; [apply new_pos|]. right. right. now split.
      -- right. split; [exact G3|]. split; [reflexivity|]. split; [apply new_pos|]. right. split; [exact G2|]. exists i, (go t (Get4 (ForPrint level fmt args))). split; [|reflexivity]. rewrite (nth_upd _ _ _ _ _ N), Nat.eqb_refl. reflexivity.
    * exists []. cbn [map]. rewrite !app_nil_r. split; [reflexivity|]. apply (prints_ext (lgs (gl w))); [rewrite G1; apply ext_new|]. exact PO.
    * reflexivity.
    * intros x Hx. unfold took, gave. cbn [go got ran at_]. rewrite E, !app_nil_r, G1. unfold extra. rewrite Nat.eqb_refl. change (fresh h1) with (Datatypes.S (fresh (lgs g0))). replace (Datatypes.S (fresh (lgs g0)) =? fresh (lgs g0))%nat with false by (symmetry; apply Nat.eqb_neq; lia).
      rewrite Hh. cbn [cnt count_occ]. destruct (Nat.eq_dec 0 x); [congruence|]. lia.
  - (* Get4 *)
    cbn [held] in Hh. destruct Hh as (D1 & D2 & D3).
    assert (S : tstep e i (gl w) t = Ok (Some (mkshared (lgs (gl w)) (dflt (gl w)) (mutex (gl w)) (dflt (gl w) :: exits (gl w)) (out (gl w)), go t (Get5 (ForPrint level fmt args))))) by (unfold tstep; now rewrite E).
    refine (K _ _ S _). intros _. apply (inv_step w i t); try assumption; cbn [lgs dflt exits out mutex].
    * apply ext_refl.
    * tauto.
    * right. now rewrite E.
    * unfold held. cbn [go at_ dflt]. rewrite D1. apply new_pos.
    * unfold glob. cbn [gl lgs dflt exits out ths]. split; [exact GD|]. right. destruct GC as [(G1 & _)|(G1 & G2 & G3 & _)].
      -- exfalso. rewrite G1 in D2. assert (X : fresh (lgs g0) = fresh h1) by congruence. cbn [h1 alloc snd fresh] in X. lia.
      -- split; [exact G1|]. split; [exact G2|]. split; [exact G3|]. left. now rewrite D1, D3.
    * exists []. cbn [map]. rewrite !app_nil_r. split; [reflexivity|]. exact PO.
    * reflexivity.
    * same_counts.
  - (* Get5 *)
    cbn [held] in Hh. apply (K (set_mutex (gl w) None) (go t (Get6 (ForPrint level fmt args)))); [unfold tstep; now rewrite E|]. intros S.
    apply (inv_mild w i t); try assumption; try mildly; try reflexivity; [now rewrite E| |same_counts]. unfold local. cbn [go at_ todo set_mutex dflt]. split; [exact L|exact Hh].
  - (* Get6 *)
    destruct L as (L & NZ). pose proof NZ as NZ'. apply Nat.eqb_neq in NZ'.
    apply (K (gl w) (go t (Pr1 (dflt (gl w)) level fmt args))); [unfold tstep; rewrite E, NZ'; reflexivity|]. intros S. destruct GD as [GD|[GD1 GD2]]; [congruence|].
    apply (inv_mild w i t); try assumption; try mildly; try reflexivity; [now rewrite E| |same_counts]. unfold local. cbn [go at_ todo]. split; [exact GD2|]. destruct L as (d & r & L1 & L2). exists 0%nat, d, r. split; [exact L1|]. split; [exact L2|]. exact GD1.
  - (* Set1 *)
    destruct (mutex (gl w)) as [m|] eqn:M; [exists None; unfold tstep; rewrite E, M; auto|].
    apply (K (set_mutex (gl w) (Some i)) (go t (Set2 p None))); [unfold tstep; now rewrite E, M|]. intros S.
    apply (inv_mild w i t); try assumption; try mildly; try reflexivity; [now rewrite E|same_counts].
  - (* Set2 *)
    apply (K (gl w) (go t (Set3 p (dflt (gl w)) None))); [unfold tstep; now rewrite E|]. intros S.
    apply (inv_mild w i t); try assumption; try mildly; try reflexivity; [now rewrite E|same_counts].
  - (* Set3 *)
    cbn [held] in Hh. destruct L as (NZ & F & r & T). pose proof (calm_head _ _ _ _ _ I N T) as C. cbn [calm] in C.
    assert (S : tstep e i (gl w) t = Ok (Some (set_dflt (gl w) p, go t (Set4 p last None)))) by (unfold tstep; now rewrite E).
    refine (K _ _ S _). intros _. apply (inv_step w i t); try assumption; cbn [set_dflt lgs dflt exits out mutex].
    * apply ext_refl.
    * intros _. exact NZ.
    * right. now rewrite E.
    * unfold local. cbn [go at_ todo]. split; [exact NZ|]. split; [exact F|]. now exists r.
    * exact Logic.I.
    * unfold glob. cbn [gl set_dflt lgs dflt exits out ths]. split.
      -- right. split; [split; [exact NZ|]; right; left; exists (ran t ++ todo t); split; [exact (member _ _ _ I N)|]; apply in_or_app; right; rewrite T; now left|].
         destruct (cells (lgs g0) p) as [lg|] eqn:CL; [|congruence]. rewrite (heap_ext _ I _ _ CL). discriminate.
      -- destruct GC as [(G1 & G2 & _)|(G1 & G2 & _ & G4)]; [left; repeat split; try assumption; congruence|right]. split; [exact G1|]. split; [exact G2|]. split; [exact NZ|]. destruct G4 as [G4|(G4 & j & y & Ny & Gy)]; [now left|]. right. split; [exact G4|]. exists j, y.
         rewrite (nth_upd _ _ _ _ _ N). destruct (Nat.eqb_spec j i) as [->|]; [|now split]. assert (y = t) by congruence. subst y. rewrite E in Gy. discriminate.
    * exists []. cbn [map]. rewrite !app_nil_r. split; [reflexivity|]. exact PO.
    * reflexivity.
    * intros x Hx. unfold took, gave. cbn [go got ran at_]. rewrite E, !app_nil_r, !cnt_app, Hh. lia.
  - (* Set4 *)
    destruct L as (NZ & F & r & T). apply (K (set_mutex (gl w) None) (finish t [last])); [unfold tstep; now rewrite E|]. intros S.
    apply (inv_mild w i t); try assumption; try mildly; try reflexivity.
    * now rewrite E.
    * cbn [finish ran]. rewrite T. cbn [firstn]. now apply Pr_logger.
    * apply finish_prog.
    * intros x Hx. unfold took, gave. cbn [finish got ran at_]. rewrite E, T, !app_nil_r, !cnt_app. cbn [firstn]. rewrite installs_app. cbn [installs flat_map app]. rewrite !cnt_app. lia.
  - (* Pr1 *)
    destruct L as (Lv & log & d & r & T & F & W). destruct (cells (lgs (gl w)) p) as [lg|] eqn:CL; [|congruence].
    apply (K (gl w) (if l_level lg <? level then finish (set_info t no_dbg) [] else go t (Pr2 p level fmt args))); [unfold tstep; rewrite E; unfold load; now rewrite CL|]. intros S.
    apply (inv_mild w i t); try assumption; try mildly; try reflexivity.
    * now rewrite E.
    * destruct (l_level lg <? level); unfold local; cbn [finish go set_info at_ todo]; [apply fits_none|]. split; [rewrite CL; discriminate|]. now exists log, d, r.
    * now destruct (l_level lg <? level).
    * destruct (Z.ltb_spec (l_level lg) level) as [LT|_]; [|exact PO]. cbn [finish set_info ran todo]. rewrite T. cbn [firstn]. eapply Pr_below; eassumption.
    * destruct (l_level lg <? level); [exact (finish_prog (set_info t no_dbg) [])|reflexivity].
    * intros x Hx. unfold took, gave. destruct (l_level lg <? level); cbn [finish set_info go got ran at_]; rewrite E, !app_nil_r; [|lia]. rewrite installs_app. cbn [todo set_info]. rewrite T. cbn [firstn installs flat_map app]. rewrite app_nil_r. lia.
  - (* Pr2 *)
    destruct L as (Lv & log & d & r & T & F & W). destruct (cells (lgs (gl w)) p) as [lg|] eqn:CL; [|congruence].
    pose proof (calm_head _ _ _ _ _ I N T) as (C1 & C2 & (tx & C3) & C4). destruct F as (F1 & F2 & F3).
    assert (PT : forall l : list nat, local (gl w) (finish (set_info t no_dbg) [])) by (intros _; unfold local; cbn [finish set_info at_]; apply fits_none).
    assert (CT : forall x, x <> 0%nat -> (cnt x (took (finish (set_info t no_dbg) [])) + cnt x (gave t) = cnt x (took t) + cnt x (gave (finish (set_info t no_dbg) [])))%nat).
    { intros x Hx. unfold took, gave. cbn [finish set_info got ran at_ todo]. rewrite E, !app_nil_r, installs_app, T. cbn [firstn installs flat_map app]. rewrite app_nil_r. lia. }
    destruct (Z.ltb_spec (l_level lg) level) as [LT|LE].
    + apply (K (gl w) (finish (set_info t no_dbg) [])); [unfold tstep; rewrite E; unfold load; rewrite CL; cbn [obind]; apply Z.ltb_lt in LT; now rewrite LT|]. intros S.
      apply (inv_mild w i t); try assumption; try mildly; try reflexivity.
      * now rewrite E.
      * exact (PT []).
      * cbn [finish set_info ran todo]. rewrite T. cbn [firstn]. eapply Pr_below; eassumption.
      * exact (finish_prog (set_info t no_dbg) []).
    + set (o := [(p, prefix (shown_opts lg) e level ++ tx ++ suffix (context t))]).
      assert (S : tstep e i (gl w) t = Ok (Some (mkshared (lgs (gl w)) (dflt (gl w)) (mutex (gl w)) (exits (gl w)) (out (gl w) ++ map (fun x => (i, x)) o), finish (set_info t no_dbg) []))).
      { unfold tstep. rewrite E. unfold load. rewrite CL. cbn [obind]. apply Z.ltb_ge in LE. rewrite LE. rewrite (print_ok _ _ _ _ _ _ _ _ tx) by assumption. cbn [obind LogModel.out]. reflexivity. }
      refine (K _ _ S _). intros _. apply (inv_step w i t); try assumption; cbn [lgs dflt exits out mutex].
      * apply ext_refl.
      * tauto.
      * left. mildly.
      * exact (PT []).
      * unfold glob. cbn [gl lgs dflt exits out ths]. split; [exact GD|]. destruct GC as [G|(G1 & G2 & G3 & G4)]; [now left|right]. repeat split; try assumption. destruct G4 as [G4|(G4 & j & y & Ny & Gy)]; [now left|]. right. split; [exact G4|]. exists j, y.
        rewrite (nth_upd _ _ _ _ _ N). destruct (Nat.eqb_spec j i) as [->|]; [|now split]. assert (y = t) by congruence. subst y. rewrite E in Gy. discriminate.
      * exists o. split; [reflexivity|]. cbn [finish set_info ran todo]. rewrite T. cbn [firstn]. unfold o. rewrite F3. eapply Pr_shown; eassumption.
      * exact (finish_prog (set_info t no_dbg) []).
      * intros x Hx. specialize (CT x Hx). lia.
Qed.
Lemma inv_run : forall sched w, inv w -> exists w', run e w sched = Ok w' /\ inv w'.
Proof.
  induction sched as [|i r IH]; intros w I; cbn [run]; [now exists w|]. unfold step. destruct (nth_error (ths w) i) as [t|] eqn:N; cbn [obind]; [|now apply IH].
  destruct (inv_next w i t I N) as (x & -> & [->|(g' & t' & -> & I')]); cbn [obind]; apply IH; assumption.
Qed.
Lemma sum_nil x f (l : list (list op)) : (forall p, f (mkthread p Idle None [] []) = []) -> sum x f (map (fun p => mkthread p Idle None [] []) l) = 0%nat.
Proof. intros H. unfold sum. rewrite map_map. induction l as [|p l IH]; [reflexivity|]. cbn [map list_sum fold_right]. rewrite H. exact IH. Qed.
Lemma inv_start : inv (start g0 ps).
Proof.
  destruct H0 as (W & M & O & D). constructor.
  - now apply minv_start.
  - intros j t N. apply nth_error_In in N. apply in_map_iff in N. destruct N as (p & <- & _). unfold local. cbn [at_]. apply fits_start.
  - intros j t N. apply nth_error_In in N. apply in_map_iff in N. destruct N as (p & <- & _). exact Logic.I.
  - unfold glob. cbn [start gl]. split; [|left; now repeat split]. destruct D as [D|D]; [now left|]. right. split; [|exact D]. split; [|now left]. intros Z. rewrite Z in D. destruct W as (W & _). congruence.
  - intros j t N. apply nth_error_In in N. apply in_map_iff in N. destruct N as (p & <- & _). cbn [ran start gl]. rewrite O. apply Pr_none.
  - cbn [start ths]. rewrite map_map. cbn [ran todo app]. apply map_id.
  - intros x Hx. cbn [start gl ths]. rewrite !sum_nil by reflexivity. unfold extra. rewrite Nat.eqb_refl. lia.
Qed.
End Calm.
