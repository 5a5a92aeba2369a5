(** C39: log messages. *)
From Verif Require Import Prelude Heap CstrModel CstrSpec CstrProofs LogModel LogSpec LogProofs.
Local Open Scope Z_scope.

(** Giving a message to a logger prints it, with the prefix and suffix the logger's options and the debug information call for, if and only if the message's level
    is at most (that is: at least as urgent as) the logger's; nothing else changes but that the debug information is used up. *)
Theorem C39_filter : forall s e p level fmt args l t, (p <> 0)%nat -> cells (lgs s) p = Some l ->
  env_ok e -> env_plain e -> dbg_ok (ctx s) -> dbg_plain (ctx s) -> 0 <= level -> vprintf fmt args = Ok t ->
  let s' := mkstate (lgs s) (dflt s) used_up (exits s) (out s ++ if level <=? l_level l then [(p, prefix (shown_opts l) e level ++ t ++ suffix (ctx s))] else []) in
  lprintf s e p level fmt args = Ok s' /\ lvprintf s e p level fmt args = Ok s'.
Proof.
  intros s e p level fmt args l t Hp Hc He Hep Hd Hdp Hl Ht. cbv zeta. rewrite (lprintf_live s e p level fmt args l t) by assumption.
  rewrite (lvprintf_live s e p level fmt args l t) by assumption. auto.
Qed.
Print Assumptions C39_filter.

(** Without a logger the default one is used; if there is none, one printing every message on stderr with its level is made first. *)
Theorem C39_default : forall s e level fmt args,
  (dflt s <> 0%nat -> lprintf s e 0 level fmt args = lprintf s e (dflt s) level fmt args /\ lvprintf s e 0 level fmt args = lvprintf s e (dflt s) level fmt args) /\
  (dflt s = 0%nat -> wf (lgs s) -> exists p s1, (p <> 0)%nat /\ cells (lgs s) p = None /\ dflt s1 = p /\ cells (lgs s1) p = Some (mklogger Stderr 2 8) /\
     (forall q, q <> p -> cells (lgs s1) q = cells (lgs s) q) /\ exits s1 = p :: exits s /\ out s1 = out s /\ ctx s1 = ctx s /\
     lprintf s e 0 level fmt args = lprintf s1 e p level fmt args /\ lvprintf s e 0 level fmt args = lvprintf s1 e p level fmt args).
Proof.
  intros s e level fmt args. split.
  - intros H. apply Nat.eqb_neq in H. unfold lprintf, lvprintf, resolve, get_logger. rewrite H. cbn [Nat.eqb]. auto.
  - intros H W. exists (fresh (lgs s)). exists (snd (get_logger s)).
    assert (F0 : fresh (lgs s) <> 0%nat) by (destruct W as (_ & W & _); lia).
    unfold get_logger. rewrite H. cbn [Nat.eqb log_new alloc snd lgs dflt exits out ctx set_lgs].
    split; [exact F0|]. split; [now apply wf_fresh|]. split; [reflexivity|]. split; [apply alloc_same|]. split; [intros q Hq; exact (alloc_other (lgs s) _ q Hq)|].
    split; [reflexivity|]. split; [reflexivity|]. split; [reflexivity|].
    unfold lprintf, lvprintf, resolve, get_logger. rewrite H. cbn [Nat.eqb log_new alloc snd lgs dflt exits out ctx set_lgs].
    apply Nat.eqb_neq in F0. rewrite !F0. auto.
Qed.
Print Assumptions C39_default.

(** In every history the debug information is what the last zt_log_set_debug_info gave, if no message call came after it; otherwise there is none. *)
Theorem C39_debug_once : get_debug_info init = mkdbg None 0 None /\
  forall l s s', steps s l = Ok s' -> get_debug_info s' = debug_after (get_debug_info s) l.
Proof.
  split; [reflexivity|].
  assert (P : forall s e p lg level d fmt args s', print s e p lg level d fmt args = Ok s' -> ctx s' = ctx s).
  { intros s e p lg level d fmt args s' H. unfold print in H. apply obind_ok in H. destruct H as (n & _ & H). apply obind_ok in H. destruct H as (t & _ & H).
    match type of H with Ok ?x = _ => assert (x = s') by congruence end. now subst s'. }
  assert (R : forall s p, ctx (snd (resolve s p)) = ctx s).
  { intros s p. unfold resolve, get_logger. destruct (p =? 0)%nat; [|reflexivity]. destruct (dflt s =? 0)%nat; reflexivity. }
  assert (V : forall s e p level fmt args s', lvprintf s e p level fmt args = Ok s' -> ctx s' = used_up).
  { intros s e p level fmt args s' H. unfold lvprintf in H. destruct (resolve s p) as [q s1]. apply obind_ok in H. destruct H as (lg & _ & H).
    destruct (l_level lg <? level); [assert (s' = set_debug_info s1 no_dbg) by congruence; now subst s'|].
    apply obind_ok in H. destruct H as (s2 & _ & H). assert (s' = set_debug_info s2 no_dbg) by congruence. now subst s'. }
  assert (V' : forall s e p level fmt args s', lprintf s e p level fmt args = Ok s' -> ctx s' = used_up).
  { intros s e p level fmt args s' H. unfold lprintf in H. destruct (resolve s p) as [q s1]. apply obind_ok in H. destruct H as (lg & _ & H).
    destruct (l_level lg <? level); [assert (s' = set_debug_info s1 no_dbg) by congruence; now subst s'|]. now apply V in H. }
  unfold get_debug_info. induction l as [|c l IH]; intros s s' H.
  - cbn [steps] in H. assert (s = s') by congruence. now subst.
  - cbn [steps] in H. apply obind_ok in H. destruct H as (s1 & H1 & H2). apply IH in H2. rewrite H2. clear H2 IH.
    destruct c as [k opts|p|p level|p opts|d|e p level fmt args|e p level fmt args|p]; cbn [debug_after step] in *.
    + f_equal. assert (s1 = snd (log_new s k opts)) by congruence. now subst s1.
    + f_equal. assert (s1 = snd (zt_log_logger s p)) by congruence. subst s1. unfold zt_log_logger, get_logger. destruct (p =? 0)%nat, (dflt s =? 0)%nat; reflexivity.
    + f_equal. unfold set_level in H1. pose proof (R s p) as R1. destruct (resolve s p) as [q s2]. cbn [snd] in R1. apply obind_ok in H1. destruct H1 as ([o s3] & H1 & H2). cbv beta iota in H2.
      apply obind_ok in H1. destruct H1 as (lg & _ & H1). apply obind_ok in H1. destruct H1 as (h & _ & H1).
      assert (s3 = set_lgs s2 h) by congruence. assert (s1 = s3) by congruence. subst. exact R1.
    + f_equal. unfold set_opts in H1. pose proof (R s p) as R1. destruct (resolve s p) as [q s2]. cbn [snd] in R1. apply obind_ok in H1. destruct H1 as ([o s3] & H1 & H2). cbv beta iota in H2.
      apply obind_ok in H1. destruct H1 as (lg & _ & H1). apply obind_ok in H1. destruct H1 as (h & _ & H1).
      assert (s3 = set_lgs s2 h) by congruence. assert (s1 = s3) by congruence. subst. exact R1.
    + f_equal. assert (s1 = set_debug_info s d) by congruence. now subst s1.
    + f_equal. now apply V' in H1.
    + f_equal. now apply V in H1.
    + f_equal. unfold zt_log_close in H1. destruct (p =? 0)%nat; [congruence|]. apply obind_ok in H1. destruct H1 as (h & _ & H1).
      destruct (p =? dflt s)%nat; match type of H1 with Ok ?x = _ => assert (E : x = s1) by congruence end; now subst s1.
Qed.
Print Assumptions C39_debug_once.

(** zt_log_logger installs the given logger (or none) and returns the one in force before; only when there is none and none is given does it make one, and return it. *)
Theorem C39_logger : forall s p, (p <> 0%nat \/ dflt s <> 0%nat) ->
  fst (zt_log_logger s p) = dflt s /\ dflt (snd (zt_log_logger s p)) = p /\ lgs (snd (zt_log_logger s p)) = lgs s /\ out (snd (zt_log_logger s p)) = out s.
Proof.
  intros s p H. unfold zt_log_logger. replace ((p =? 0)%nat && (dflt s =? 0)%nat) with false by (destruct H; destruct (Nat.eqb_spec p 0), (Nat.eqb_spec (dflt s) 0); cbn; congruence).
  auto.
Qed.
Print Assumptions C39_logger.
Theorem C39_logger_none : forall s, dflt s = 0%nat -> wf (lgs s) ->
  let '(p, s') := zt_log_logger s 0 in (p <> 0)%nat /\ cells (lgs s) p = None /\ dflt s' = p /\ cells (lgs s') p = Some (mklogger Stderr 2 8).
Proof.
  intros s H W. unfold zt_log_logger, get_logger. rewrite H. cbn [Nat.eqb andb log_new alloc lgs dflt set_lgs].
  split; [destruct W as (_ & W & _); lia|]. split; [now apply wf_fresh|]. split; [reflexivity|]. apply alloc_same.
Qed.
Print Assumptions C39_logger_none.

(** Levels and options: setting returns the old value, reading gives what was last set, other loggers are not affected. *)
Theorem C39_level_opts : forall s p l v, (p <> 0)%nat -> cells (lgs s) p = Some l ->
  (exists s', set_level s p v = Ok (l_level l, s') /\ get_level s' p = Ok (v, s') /\ get_opts s' p = Ok (l_opts l, s') /\
     (forall q, q <> p -> cells (lgs s') q = cells (lgs s) q) /\ out s' = out s /\ dflt s' = dflt s) /\
  (exists s', set_opts s p v = Ok (l_opts l, s') /\ get_opts s' p = Ok (v, s') /\ get_level s' p = Ok (l_level l, s') /\
     (forall q, q <> p -> cells (lgs s') q = cells (lgs s) q) /\ out s' = out s /\ dflt s' = dflt s).
Proof.
  intros s p l v Hp Hc. apply Nat.eqb_neq in Hp. split.
  - eexists. unfold set_level, resolve. rewrite Hp. rewrite (load_ok _ _ _ Hc). cbn [obind]. rewrite (store_ok _ _ _ _ Hc). cbn [obind].
    split; [reflexivity|]. unfold get_level, get_opts, resolve. rewrite Hp. cbn [lgs set_lgs]. rewrite (load_ok _ _ _ (hupd_same _ _ _)). cbn [obind l_level l_opts].
    split; [reflexivity|]. split; [reflexivity|]. split; [intros q Hq; now apply hupd_other|]. auto.
  - eexists. unfold set_opts, resolve. rewrite Hp. rewrite (load_ok _ _ _ Hc). cbn [obind]. rewrite (store_ok _ _ _ _ Hc). cbn [obind].
    split; [reflexivity|]. unfold get_level, get_opts, resolve. rewrite Hp. cbn [lgs set_lgs]. rewrite (load_ok _ _ _ (hupd_same _ _ _)). cbn [obind l_level l_opts].
    split; [reflexivity|]. split; [reflexivity|]. split; [intros q Hq; now apply hupd_other|]. auto.
Qed.
Print Assumptions C39_level_opts.

(** The text handed to printf is the prefix, the caller's format and the suffix, and the buffers the code allocates are large enough for it. *)
Theorem C39_text : forall opts e fmt d level, env_ok e -> dbg_ok d -> 0 <= level -> gen_fmt opts e fmt d level = Ok (prefix opts e level ++ fmt ++ suffix d).
Proof. exact gen_fmt_ok. Qed.
Print Assumptions C39_text.

(** zt_log_lstrerror with a strerror_r as POSIX has it: the message is followed by ": " and the text of the error. *)
Theorem C39_strerror_posix : forall s e p level errtext fmt args l t, (p <> 0)%nat -> cells (lgs s) p = Some l ->
  env_ok e -> env_plain e -> dbg_ok (ctx s) -> dbg_plain (ctx s) -> 0 <= level -> vprintf fmt args = Ok t -> zlen errtext < 253 -> plain errtext ->
  lstrerror s e p level (false, Some errtext) fmt args = Ok (mkstate (lgs s) (dflt s) used_up (exits s)
    (out s ++ if level <=? l_level l then [(p, prefix (shown_opts l) e level ++ (t ++ [58; 32] ++ errtext) ++ suffix (ctx s))] else [])).
Proof.
  intros s e p level errtext fmt args l t Hp Hc He Hep Hd Hdp Hl Ht Hz Hpl. unfold lstrerror, resolve.
  replace (p =? 0)%nat with false by (symmetry; now apply Nat.eqb_neq). rewrite (load_ok _ _ _ Hc). cbn [obind]. destruct (l_level l <? level) eqn:E.
  - replace (level <=? l_level l) with false by lia. now rewrite app_nil_r.
  - cbn [fst snd obind]. replace (zlen errtext <? 253) with true by lia. apply lvprintf_live; try assumption.
    apply vprintf_app; [|exact Ht]. apply plain_app. split; [unfold colon; lit|exact Hpl].
Qed.
Print Assumptions C39_strerror_posix.
(** If strerror_r reports a failure but leaves a text, the library says so first, at level 2 (critical), with the debug information; the message itself comes after it,
    without. *)
Theorem C39_strerror_failed : forall s e p level errtext fmt args l t, (p <> 0)%nat -> cells (lgs s) p = Some l ->
  env_ok e -> env_plain e -> dbg_ok (ctx s) -> dbg_plain (ctx s) -> 0 <= level -> level <= l_level l -> vprintf fmt args = Ok t -> zlen errtext < 253 -> plain errtext ->
  lstrerror s e p level (true, Some errtext) fmt args = Ok (mkstate (lgs s) (dflt s) used_up (exits s)
    (out s ++ (if 2 <=? l_level l then [(p, prefix (shown_opts l) e 2 ++ capture_failed ++ suffix (ctx s))] else []) ++
     [(p, prefix (shown_opts l) e level ++ (t ++ [58; 32] ++ errtext) ++ [10])])).
Proof.
  intros s e p level errtext fmt args l t Hp Hc He Hep Hd Hdp Hl Hll Ht Hz Hpl. unfold lstrerror, resolve.
  replace (p =? 0)%nat with false by (symmetry; now apply Nat.eqb_neq). rewrite (load_ok _ _ _ Hc). cbn [obind]. replace (l_level l <? level) with false by lia.
  cbn [fst snd]. assert (V : vprintf no_capture [] = Ok capture_failed) by (vm_compute; reflexivity).
  rewrite (lprintf_live s e p log_crit no_capture [] l capture_failed) by (exact V || assumption || (vm_compute; discriminate)).
  rewrite (lvprintf_live s e p log_crit no_capture [] l capture_failed) by (exact V || assumption || (vm_compute; discriminate)).
  cbn [obind]. replace (zlen errtext <? 253) with true by lia.
  erewrite (lvprintf_live _ e p level _ args l (t ++ [58; 32] ++ errtext)); cbn [lgs dflt ctx exits out]; try eassumption.
  - replace (level <=? l_level l) with true by lia. rewrite <- !app_assoc. reflexivity.
  - reflexivity.
  - split; lit.
  - apply vprintf_app; [|exact Ht]. apply plain_app. split; [unfold colon; lit|exact Hpl].
Qed.
Print Assumptions C39_strerror_failed.
(** With the strerror_r the build gets on Linux the text after the message is read from memory that was never written. *)
Theorem C39_strerror_gnu_refuted : forall s e p level fmt args l s1, (p <> 0)%nat -> cells (lgs s) p = Some l -> level <= l_level l ->
  lprintf s e p 2 capture_failed [] = Ok s1 ->
  lstrerror s e p level (true, None) fmt args = UB.
Proof.
  intros s e p level fmt args l s1 Hp Hc Hl H1. unfold lstrerror, resolve. replace (p =? 0)%nat with false by (symmetry; now apply Nat.eqb_neq).
  rewrite (load_ok _ _ _ Hc). cbn [obind]. replace (l_level l <? level) with false by lia. cbn [fst snd]. change no_capture with capture_failed; change log_crit with 2; rewrite H1. reflexivity.
Qed.
Print Assumptions C39_strerror_gnu_refuted.

(** The date, host, program and source file names are put into the format itself: a program whose name has a '%' in it makes every message read an argument that was not given. *)
Definition envp : env := mkenv [] None [37; 115] 1.   (* the program is called "%s" *)
Definition s1 : state := snd (log_new init Stderr WITH_PROGNAME).
Theorem C39_percent_refuted : exists s e p level fmt t, env_ok e /\ dbg_ok (ctx s) /\ (exists l, cells (lgs s) p = Some l /\ level <= l_level l) /\
  vprintf fmt [] = Ok t /\ lprintf s e p level fmt [] = UB.
Proof.
  exists s1, envp, 1%nat, 3, [104; 105], [104; 105]. split; [split; [exact Logic.I|vm_compute; intuition congruence]|].
  split; [reflexivity|]. split; [eexists; split; [reflexivity|vm_compute; discriminate]|]. split; vm_compute; reflexivity.
Qed.
Print Assumptions C39_percent_refuted.

(** Whole histories.  The program may use a logger it has made until it closes it; loggers the library makes for itself it may use but not close. *)
Definition usable (s : state) (p : nat) : Prop := p = 0%nat \/ exists l, cells (lgs s) p = Some l.
Definition allowed (s : state) (c : call) : Prop :=
  match c with
  | New _ _ => True
  | Logger p | SetLevel p _ | SetOpts p _ => usable s p
  | SetDebug d => dbg_ok d /\ dbg_plain d
  | Printf e p level fmt args | Vprintf e p level fmt args => env_ok e /\ env_plain e /\ usable s p /\ 0 <= level /\ exists t, vprintf fmt args = Ok t
  | Close p => usable s p /\ ~ In p (exits s)
  end.
Fixpoint allowed_all (s : state) (l : list call) : Prop :=
  match l with [] => True | c :: r => allowed s c /\ forall s', step s c = Ok s' -> allowed_all s' r end.
Record good (s : state) : Prop := {
  g_wf : wf (lgs s);
  g_dflt : usable s (dflt s);
  g_nodup : NoDup (exits s);
  g_exits : forall p, In p (exits s) -> exists l, cells (lgs s) p = Some l;
  g_dbg : dbg_ok (ctx s) /\ dbg_plain (ctx s) }.
Lemma init_good : good init.
Proof.
  constructor.
  - split; [reflexivity|]. split; [cbn; lia|]. reflexivity.
  - left. reflexivity.
  - constructor.
  - intros p [].
  - split; [reflexivity|]. split; lit.
Qed.
Lemma new_good s k opts : good s -> good (snd (log_new s k opts)).
Proof.
  intros G. pose proof (g_wf _ G) as W. assert (O : forall p l, cells (lgs s) p = Some l -> cells (snd (alloc (lgs s) (mklogger k opts log_max))) p = Some l).
  { intros p l H. rewrite alloc_other; [exact H|]. intros ->. rewrite wf_fresh in H by exact W. discriminate. }
  constructor; unfold log_new; cbn [alloc snd lgs dflt exits ctx set_lgs].
  - exact (wf_alloc (lgs s) _ W).
  - destruct (g_dflt _ G) as [H|[l H]]; [now left|right]. exists l. exact (O _ _ H).
  - apply G.
  - intros p H. destruct (g_exits _ G p H) as [l H']. exists l. exact (O _ _ H').
  - apply G.
Qed.
Lemma get_logger_good s : good s -> good (snd (get_logger s)) /\ (fst (get_logger s) <> 0)%nat /\ (exists l, cells (lgs (snd (get_logger s))) (fst (get_logger s)) = Some l).
Proof.
  intros G. pose proof (g_wf _ G) as W. unfold get_logger. destruct (Nat.eqb_spec (dflt s) 0) as [E|E].
  - pose proof (new_good s Stderr WITH_LEVEL G) as G1. unfold log_new in *. cbn [alloc snd fst lgs dflt exits ctx set_lgs] in *. split; [|split].
    + constructor; cbn [lgs dflt exits ctx].
      * apply G1.
      * right. eexists. apply (alloc_same (lgs s) (mklogger Stderr WITH_LEVEL log_max)).
      * constructor; [|apply G]. intros H. destruct (g_exits _ G _ H) as [l Hl]. rewrite wf_fresh in Hl by exact W. discriminate.
      * intros p [<-|H]; [eexists; apply (alloc_same (lgs s) (mklogger Stderr WITH_LEVEL log_max))|]. apply (g_exits _ G1 p H).
      * apply G.
    + destruct W as (_ & W & _). lia.
    + eexists. apply (alloc_same (lgs s) (mklogger Stderr WITH_LEVEL log_max)).
  - cbn [fst snd]. split; [exact G|]. split; [exact E|]. destruct (g_dflt _ G) as [H|H]; [congruence|exact H].
Qed.
Lemma resolve_good s p : good s -> usable s p -> good (snd (resolve s p)) /\ (fst (resolve s p) <> 0)%nat /\ (exists l, cells (lgs (snd (resolve s p))) (fst (resolve s p)) = Some l).
Proof.
  intros G U. unfold resolve. destruct (Nat.eqb_spec p 0) as [E|E]; [now apply get_logger_good|]. cbn [fst snd]. split; [exact G|]. split; [exact E|]. destruct U as [U|U]; [congruence|exact U].
Qed.
Lemma store_good s p l l' : good s -> cells (lgs s) p = Some l -> good (set_lgs s (hupd (lgs s) p l')).
Proof.
  intros G H. assert (O : forall q, (exists x, cells (lgs s) q = Some x) -> exists x, cells (hupd (lgs s) p l') q = Some x).
  { intros q [x Hx]. destruct (Nat.eq_dec q p) as [->|N]; [eexists; apply hupd_same|]. exists x. now rewrite hupd_other. }
  constructor; cbn [lgs dflt exits ctx set_lgs].
  - eapply wf_upd; [apply G|exact H].
  - destruct (g_dflt _ G) as [H1|H1]; [now left|right; now apply O].
  - apply G.
  - intros q Hq. apply O. now apply (g_exits _ G).
  - apply G.
Qed.
Lemma used_up_good s o : good s -> good (mkstate (lgs s) (dflt s) used_up (exits s) o).
Proof. intros G. constructor; cbn [lgs dflt exits ctx]; try apply G. split; [reflexivity|split; lit]. Qed.
Lemma step_good s c : good s -> allowed s c -> exists s', step s c = Ok s' /\ good s'.
Proof.
  intros G A. destruct c as [k opts|p|p level|p opts|d|e p level fmt args|e p level fmt args|p]; cbn [step allowed] in *.
  - eexists. split; [reflexivity|]. now apply new_good.
  - eexists. split; [reflexivity|]. unfold zt_log_logger. destruct ((p =? 0)%nat && (dflt s =? 0)%nat); [now apply get_logger_good|]. cbn [snd].
    constructor; cbn [lgs dflt exits ctx set_dflt]; try apply G. exact A.
  - destruct (resolve_good s p G A) as (G1 & N1 & l & H1). unfold set_level. destruct (resolve s p) as [q s2]. cbn [fst snd] in *.
    rewrite (load_ok _ _ _ H1). cbn [obind]. rewrite (store_ok _ _ _ _ H1). cbn [obind]. eexists. split; [reflexivity|]. eapply store_good; eauto.
  - destruct (resolve_good s p G A) as (G1 & N1 & l & H1). unfold set_opts. destruct (resolve s p) as [q s2]. cbn [fst snd] in *.
    rewrite (load_ok _ _ _ H1). cbn [obind]. rewrite (store_ok _ _ _ _ H1). cbn [obind]. eexists. split; [reflexivity|]. eapply store_good; eauto.
  - eexists. split; [reflexivity|]. constructor; cbn [lgs dflt exits ctx set_debug_info]; try apply G. exact A.
  - destruct A as (A1 & A2 & A3 & A4 & t & A5). destruct (resolve_good s p G A3) as (G1 & N1 & l & H1).
    assert (E : lprintf s e p level fmt args = lprintf (snd (resolve s p)) e (fst (resolve s p)) level fmt args).
    { unfold lprintf. destruct (resolve s p) as [q s2]. cbn [fst snd] in *. unfold resolve. apply Nat.eqb_neq in N1. now rewrite N1. }
    rewrite E. destruct (resolve s p) as [q s2]. cbn [fst snd] in *. destruct (g_dbg _ G1) as [D1 D2].
    rewrite (lprintf_live s2 e q level fmt args l t), (lvprintf_live s2 e q level fmt args l t) by assumption. eexists. split; [reflexivity|]. now apply used_up_good.
  - destruct A as (A1 & A2 & A3 & A4 & t & A5). destruct (resolve_good s p G A3) as (G1 & N1 & l & H1).
    assert (E : lvprintf s e p level fmt args = lvprintf (snd (resolve s p)) e (fst (resolve s p)) level fmt args).
    { unfold lvprintf. destruct (resolve s p) as [q s2]. cbn [fst snd] in *. unfold resolve. apply Nat.eqb_neq in N1. now rewrite N1. }
    rewrite E. destruct (resolve s p) as [q s2]. cbn [fst snd] in *. destruct (g_dbg _ G1) as [D1 D2].
    rewrite (lvprintf_live s2 e q level fmt args l t) by assumption. eexists. split; [reflexivity|]. now apply used_up_good.
  - destruct A as [A1 A2]. unfold zt_log_close. destruct (Nat.eqb_spec p 0) as [E|E]; [eauto|]. destruct A1 as [A1|[l A1]]; [congruence|].
    destruct (release_ok (lgs s) p l A1) as (h & R1 & R2 & R3 & R4). pose proof (wf_release _ _ _ (g_wf _ G) R1) as W.
    destruct (Nat.eqb_spec p (dflt s)) as [Ed|Ed]; cbn [lgs set_dflt]; rewrite R1; cbn [obind]; (eexists; split; [reflexivity|]);
      constructor; cbn [lgs dflt exits ctx set_lgs set_dflt]; try apply G; try exact W.
    + now left.
    + intros q Hq. destruct (g_exits _ G q Hq) as [x Hx]. exists x. rewrite R3; [exact Hx|]. congruence.
    + destruct (g_dflt _ G) as [H|[x H]]; [now left|right]. exists x. cbn [lgs]. rewrite R3; [exact H|congruence].
    + intros q Hq. destruct (g_exits _ G q Hq) as [x Hx]. exists x. rewrite R3; [exact Hx|]. congruence.
Qed.
Lemma close_all_ok : forall l s, wf (lgs s) -> NoDup l -> (forall p, In p l -> exists x, cells (lgs s) p = Some x) ->
  exists s', close_all s l = Ok s' /\ out s' = out s /\ forall p, cells (lgs s') p = if in_dec Nat.eq_dec p l then None else cells (lgs s) p.
Proof.
  induction l as [|p l IH]; intros s W N H.
  - exists s. split; [reflexivity|]. split; [reflexivity|]. intros p. destruct (in_dec Nat.eq_dec p []) as [[]|]. reflexivity.
  - apply NoDup_cons_iff in N. destruct N as [N1 N2]. destruct (H p (or_introl eq_refl)) as [x Hx]. pose proof (wf_live _ _ _ W Hx) as [P0 _].
    cbn [close_all]. unfold zt_log_close. apply Nat.eqb_neq in P0. rewrite P0.
    destruct (release_ok (lgs s) p x Hx) as (h & R1 & R2 & R3 & R4). pose proof (wf_release _ _ _ W R1) as W1.
    set (s1 := set_lgs (if (p =? dflt s)%nat then set_dflt s 0 else s) h).
    assert (E : (h0 <- release (lgs (if (p =? dflt s)%nat then set_dflt s 0 else s)) p;; Ok (set_lgs (if (p =? dflt s)%nat then set_dflt s 0 else s) h0)) = Ok s1).
    { subst s1. destruct (p =? dflt s)%nat; cbn [lgs set_dflt]; rewrite R1; reflexivity. }
    rewrite E. cbn [obind]. destruct (IH s1) as (s2 & E2 & O2 & C2).
    + subst s1. exact W1.
    + exact N2.
    + intros q Hq. destruct (H q (or_intror Hq)) as [y Hy]. exists y. subst s1. cbn [lgs set_lgs]. rewrite R3; [exact Hy|]. congruence.
    + exists s2. split; [exact E2|]. split; [rewrite O2; subst s1; destruct (p =? dflt s)%nat; reflexivity|]. intros q. rewrite C2. subst s1. cbn [lgs set_lgs].
      destruct (in_dec Nat.eq_dec q l) as [Hq|Hq], (in_dec Nat.eq_dec q (p :: l)) as [Hq'|Hq']; try reflexivity.
      * exfalso. apply Hq'. now right.
      * destruct Hq' as [<-|Hq']; [exact R2|contradiction].
      * apply R3. intros ->. apply Hq'. now left.
Qed.

(** Every such history runs without undefined behaviour, and so does the exit of the program after it, which closes each logger the library made exactly once,
    and no other. *)
Theorem C39_history : forall l, allowed_all init l -> exists s, steps init l = Ok s /\
  exists s', at_exit s = Ok s' /\ out s' = out s /\ (forall p, In p (exits s) -> cells (lgs s') p = None) /\ (forall p, ~ In p (exits s) -> cells (lgs s') p = cells (lgs s) p).
Proof.
  assert (G : forall l s, good s -> allowed_all s l -> exists s', steps s l = Ok s' /\ good s').
  { induction l as [|c l IH]; intros s Gs A; [exists s; auto|]. destruct A as [A1 A2]. destruct (step_good s c Gs A1) as (s1 & E1 & G1).
    destruct (IH s1 G1 (A2 _ E1)) as (s2 & E2 & G2). exists s2. cbn [steps]. rewrite E1. auto. }
  intros l A. destruct (G l init init_good A) as (s & E & Gs). exists s. split; [exact E|].
  destruct (close_all_ok (exits s) (mkstate (lgs s) (dflt s) (ctx s) [] (out s)) (g_wf _ Gs) (g_nodup _ Gs) (g_exits _ Gs)) as (s' & E' & O' & C').
  exists s'. split; [exact E'|]. split; [exact O'|]. cbn [lgs] in C'. split; intros p Hp; rewrite C'; destruct (in_dec Nat.eq_dec p (exits s)); tauto.
Qed.
Print Assumptions C39_history.

(** Closing the logger that zt_log_logger(NULL) hands out, against that rule, frees it a second time at exit. *)
Theorem C39_close_default_twice : exists s, steps init [Logger 0; Close 1] = Ok s /\ at_exit s = UB.
Proof.
  destruct (steps init [Logger 0; Close 1]) as [s| | |] eqn:E; [|exfalso; vm_compute in E; discriminate E..].
  exists s. split; [reflexivity|]. assert (H : match steps init [Logger 0; Close 1] with Ok s => at_exit s | _ => Abort end = UB) by (vm_compute; reflexivity).
  rewrite E in H. exact H.
Qed.
Print Assumptions C39_close_default_twice.

(** a history meeting the hypotheses: a logger of the program's own, a message with debug information, one that is filtered out, one on the default logger *)
Definition env1 : env := mkenv [78] (Some [104; 46; 120]) [112] 42.
Definition hist1 : list call :=
  [New File 31; SetLevel 1 3; SetDebug (mkdbg (Some [102]) 7 (Some [103])); Printf env1 1 3 [97; 37; 115] [[98]]; Printf env1 1 4 [97] []; Printf env1 1 3 [99] [];
   Printf env1 0 7 [100] []; Logger 1; Close 1].
Example C39_example : match steps init hist1 with Ok s => out s = [
    (1%nat, [78; 104; 32; 112; 91; 52; 50; 93; 58; 32; 69; 114; 114; 111; 114; 58; 32; 97; 98; 58; 32; 105; 110; 32; 103; 32; 97; 116; 32; 40; 102; 58; 55; 41; 10]);
    (1%nat, [78; 104; 32; 112; 91; 52; 50; 93; 58; 32; 69; 114; 114; 111; 114; 58; 32; 99; 10]);
    (2%nat, [68; 101; 98; 117; 103; 58; 32; 100; 10])] | _ => False end.
Proof. vm_compute. reflexivity. Qed.
Example C39_example_allowed : allowed_all init hist1.
Proof.
  assert (EO : env_ok env1) by (split; [vm_compute; discriminate|vm_compute; intuition discriminate]).
  assert (EP : env_plain env1) by (split; [lit|split; lit]).
  assert (X : forall s c r, allowed s c -> match step s c with Ok s' => allowed_all s' r | _ => True end -> allowed_all s (c :: r)).
  { intros s c r H1 H2. split; [exact H1|]. intros s' E. now rewrite E in H2. }
  assert (V : forall fmt args t, vprintf fmt args = Ok t -> exists t, vprintf fmt args = Ok t) by eauto.
  unfold hist1. repeat (apply X; [|match goal with |- match ?x with _ => _ end => let y := eval vm_compute in x in change x with y; cbv iota beta end]); try exact Logic.I.
  - right. eexists. vm_compute. reflexivity.
  - split; [reflexivity|split; lit].
  - split; [exact EO|]. split; [exact EP|]. split; [right; eexists; vm_compute; reflexivity|]. split; [discriminate|]. eapply V. vm_compute. reflexivity.
  - split; [exact EO|]. split; [exact EP|]. split; [right; eexists; vm_compute; reflexivity|]. split; [discriminate|]. eapply V. vm_compute. reflexivity.
  - split; [exact EO|]. split; [exact EP|]. split; [right; eexists; vm_compute; reflexivity|]. split; [discriminate|]. eapply V. vm_compute. reflexivity.
  - split; [exact EO|]. split; [exact EP|]. split; [left; reflexivity|]. split; [discriminate|]. eapply V. vm_compute. reflexivity.
  - right. eexists. vm_compute. reflexivity.
  - split; [right; eexists; vm_compute; reflexivity|]. intros [H|[]]. discriminate.
Qed.

(** What a message's format and arguments print (the hypothesis [vprintf fmt args = Ok t] of the theorems above): ordinary characters as they are, "%%" as one percent sign, a percent sign and one of the
    letters c d f g i p s u x as the argument's text; arguments left over are ignored. *)
Inductive piece := Plain (c : Z) | Percent | Directive (d : Z) (a : text).
Definition piece_ok (p : piece) : Prop := match p with Plain c => c <> 37 | Percent => True | Directive d _ => In d [99; 100; 102; 103; 105; 112; 115; 117; 120] end.
Definition piece_fmt (p : piece) : text := match p with Plain c => [c] | Percent => [37; 37] | Directive d _ => [37; d] end.
Definition piece_args (p : piece) : list text := match p with Directive _ a => [a] | _ => [] end.
Definition piece_text (p : piece) : text := match p with Plain c => [c] | Percent => [37] | Directive _ a => a end.
Theorem C39_message : forall l more, Forall piece_ok l -> vprintf (flat_map piece_fmt l) (flat_map piece_args l ++ more) = Ok (flat_map piece_text l).
Proof.
  induction l as [|p l IH]; intros more F; [reflexivity|]. inversion F as [|? ? P F']; subst. cbn [flat_map]. destruct p as [c| |d a]; cbn [piece_fmt piece_args piece_text app piece_ok] in *.
  - cbn [vprintf]. apply Z.eqb_neq in P. rewrite P, IH by assumption. reflexivity.
  - cbn [vprintf]. change (37 =? 37) with true. cbv iota. rewrite IH by assumption. reflexivity.
  - cbn [vprintf]. change (37 =? 37) with true. cbv iota.
    assert (D : conversion d = true /\ (d =? 37) = false). { cbn [In] in P. repeat (destruct P as [<-|P]; [split; reflexivity|]). destruct P. }
    destruct D as (D1 & D2). rewrite D1, D2. cbn [negb]. rewrite IH by assumption. reflexivity.
Qed.
Example C39_message_meets : vprintf [97; 37; 112; 37; 37; 37; 120] [[49]; [50; 51]; [52]] = Ok [97; 49; 37; 50; 51] /\ Forall piece_ok [Plain 97; Directive 112 [49]; Percent; Directive 120 [50; 51]].
Proof. split; [reflexivity|]. repeat constructor; cbn; lia || tauto. Qed.
Print Assumptions C39_message.
