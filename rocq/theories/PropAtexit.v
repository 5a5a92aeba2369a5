(** C40: zt_atexit callbacks run exactly once, last registered first. *)
From Verif Require Import Prelude Heap ElistModel ElistProofs AtexitModel AtexitSpec AtexitProofs.

Lemma replay_count fn data : forall l stk stk', replay stk l = Some stk' ->
  regs fn data l + length (filter (fun v => (fst v =? fn) && (snd v =? data)) stk) =
  calls fn data l + length (filter (fun v => (fst v =? fn) && (snd v =? data)) stk').
Proof.
  induction l as [|[f d|f d] l IH]; intros stk stk' H; cbn [replay regs calls] in *.
  - assert (stk = stk') by congruence. subst. reflexivity.
  - apply IH in H. cbn [filter fst snd] in H. destruct ((f =? fn) && (d =? data)); cbn [length] in H; lia.
  - destruct stk as [|[f' d'] stk]; [discriminate|]. destruct ((f' =? f) && (d' =? d)) eqn:E; [|discriminate].
    apply andb_true_iff in E. destruct E as [E1 E2]. apply Nat.eqb_eq in E1, E2. subst f' d'. apply IH in H. cbn [filter fst snd].
    destruct ((f =? fn) && (d =? data)); cbn [length]; lia.
Qed.

Lemma weights does huser (rank : action -> nat) :
  (forall f d a, In a (does f d) -> rank a < rank (Zatexit f d)) -> (forall k a, In a (huser k) -> rank a < rank (Catexit k)) ->
  exists W, descends does huser W /\ forall f d, 0 < W (Zatexit f d).
Proof.
  intros Hd Hu.
  set (w := fix w (n : nat) (a : action) {struct n} : nat :=
    match n with O => 0 | S n => match a with Zatexit f d => 2 + sum (map (w n) (does f d)) | Catexit k => 1 + sum (map (w n) (huser k)) end end).
  assert (St : forall n a, rank a < n -> w n a = w (S (rank a)) a).
  { assert (G : forall n m a, rank a < n -> rank a < m -> w n a = w m a).
    { induction n as [|n IH]; intros m a L1 L2; [lia|]. destruct m as [|m]; [lia|]. destruct a as [f d|k]; cbn [w]; do 2 f_equal.
      - apply map_ext_in. intros b Hb. apply Hd in Hb. apply IH; lia.
      - apply map_ext_in. intros b Hb. apply Hu in Hb. apply IH; lia. }
    intros n a L. apply G; lia. }
  exists (fun a => w (S (rank a)) a). split.
  - split.
    + intros f d. cbn [w]. rewrite (map_ext_in (fun a => w (S (rank a)) a) (w (rank (Zatexit f d)))); [unfold w; lia|].
      intros a Ha. symmetry. apply St. now apply Hd.
    + intros k. cbn [w]. rewrite (map_ext_in (fun a => w (S (rank a)) a) (w (rank (Catexit k)))); [unfold w; lia|].
      intros a Ha. symmetry. apply St. now apply Hu.
  - intros f d. cbn [w]. lia.
Qed.

Lemma program_inv (does : nat -> nat -> list action) (huser : nat -> list action) (prog : list action) : (forall f d, Forall nonnull (does f d)) -> (forall k, Forall nonnull (huser k)) -> Forall nonnull prog ->
  exists s l c, acts start prog = Ok s /\ inv [] s l c /\ ready false s l.
Proof.
  intros Hd Hu Hp. destruct (acts_inv (fun _ => 1) (fun _ _ => Nat.lt_0_1) [] false prog start [] [] start_inv) as (s & l & c & E & V & R & _ & _).
  - intros H. now elim H.
  - exact Hp.
  - exists s, (l ++ []), (c ++ []). auto.
Qed.

(** Whatever the program registers, before exiting or from the callbacks themselves, and however it mixes in handlers of its own registered with
    the C library: when exit has finished, every call was to the callback registered last among those not yet called, and none is left uncalled. *)
Theorem C40_lifo : forall does huser prog fuel s,
  (forall f d, Forall nonnull (does f d)) -> (forall k, Forall nonnull (huser k)) -> Forall nonnull prog ->
  program fuel does huser prog = Ok s -> pending (log s) = Some [].
Proof.
  intros does huser prog fuel s Hd Hu Hp. destruct (program_inv does huser prog Hd Hu Hp) as (s0 & l & c & E & V & R).
  unfold program. rewrite E. cbn [obind]. intros H.
  destruct (exit_inv does huser Hd Hu (fun _ => 1) (fun _ _ => Nat.lt_0_1) fuel s0 l c V R) as [[H1 _]|(s' & H1 & V' & _)]; [congruence|].
  assert (s' = s) by congruence. subst s'. apply V'.
Qed.
Print Assumptions C40_lifo.

(** In particular each callback is called exactly as many times as it was registered, with the data it was registered with. *)
Theorem C40_exactly_once : forall does huser prog fuel s fn data,
  (forall f d, Forall nonnull (does f d)) -> (forall k, Forall nonnull (huser k)) -> Forall nonnull prog ->
  program fuel does huser prog = Ok s -> calls fn data (log s) = regs fn data (log s).
Proof.
  intros does huser prog fuel s fn data Hd Hu Hp E. pose proof (C40_lifo _ _ _ _ _ Hd Hu Hp E) as P. unfold pending in P.
  pose proof (replay_count fn data _ _ _ P) as H. cbn [filter length] in H. lia.
Qed.
Print Assumptions C40_exactly_once.

(** Nothing undefined happens on the way, and at the end no callback record is left in memory and no handler is left with the C library. *)
Theorem C40_safe_no_leak : forall does huser prog fuel,
  (forall f d, Forall nonnull (does f d)) -> (forall k, Forall nonnull (huser k)) -> Forall nonnull prog ->
  program fuel does huser prog = Loop \/
  exists s, program fuel does huser prog = Ok s /\ libc s = [] /\ (forall a, cbs s a = None) /\ (forall a, live (mem s) a -> a = cb_stack).
Proof.
  intros does huser prog fuel Hd Hu Hp. destruct (program_inv does huser prog Hd Hu Hp) as (s0 & l & c & E & V & R).
  unfold program. rewrite E. cbn [obind].
  destruct (exit_inv does huser Hd Hu (fun _ => 1) (fun _ _ => Nat.lt_0_1) fuel s0 l c V R) as [[H1 _]|(s' & H1 & V' & L')]; [now left|right].
  exists s'. split; [exact H1|]. split; [exact L'|]. split.
  - intros a. destruct (cbs s' a) eqn:Ea; [|reflexivity]. assert (In a ([] ++ [])) by (apply (iv_only _ _ _ _ V'); congruence). contradiction.
  - intros a Ha. apply (iv_live _ _ _ _ V') in Ha. destruct Ha as [Ha|[]]. exact Ha.
Qed.
Print Assumptions C40_safe_no_leak.

(** If registrations from callbacks do not go on for ever, exit finishes, so that all of the above happens. *)
Theorem C40_terminates : forall does huser prog rank,
  (forall f d, Forall nonnull (does f d)) -> (forall k, Forall nonnull (huser k)) -> Forall nonnull prog ->
  (forall f d a, In a (does f d) -> rank a < rank (Zatexit f d)) -> (forall k a, In a (huser k) -> rank a < rank (Catexit k)) ->
  exists N s, forall fuel, N <= fuel -> exists s', program fuel does huser prog = Ok s' /\ log s' = s.
Proof.
  intros does huser prog rank Hd Hu Hp Rd Ru. destruct (weights does huser rank Rd Ru) as (W & HD & HW).
  destruct (program_inv does huser prog Hd Hu Hp) as (s0 & l & c & E & V & R).
  assert (T : forall fuel, meas W s0 c < fuel -> exists s', exit_run fuel does huser s0 = Ok s').
  { intros fuel L. destruct (exit_inv does huser Hd Hu W HW fuel s0 l c V R) as [[H1 H2]|(s' & H1 & _)]; [specialize (H2 HD); lia|eauto]. }
  assert (Mc : forall fuel s s', atexit_call fuel does s = Ok s' -> atexit_call (S fuel) does s = Ok s').
  { induction fuel as [|fuel IH]; intros s s' H; [discriminate|]. cbn [atexit_call] in H. remember (S fuel) as n. cbn [atexit_call].
    destruct (stack_empty (mem s) cb_stack) as [[|]| | |]; cbn [obind] in *; try congruence.
    destruct (stack_pop (mem s) cb_stack) as [[cb m]| | |]; cbn [obind] in *; try congruence.
    destruct (cbs s cb) as [[fn data]|]; try congruence.
    destruct (negb (cb =? 0) && negb (fn =? 0)); [|subst n; now apply IH].
    destruct (acts _ (does fn data)) as [s1| | |]; cbn [obind] in *; try congruence.
    destruct (release (mem s1) cb) as [m1| | |]; cbn [obind] in *; try congruence. subst n. now apply IH. }
  assert (Me : forall fuel s s', exit_run fuel does huser s = Ok s' -> exit_run (S fuel) does huser s = Ok s').
  { induction fuel as [|fuel IH]; intros s s' H; [discriminate|]. cbn [exit_run] in H. remember (S fuel) as n. cbn [exit_run].
    destruct (libc s) as [|[|k] r]; [exact H| |].
    - destruct (atexit_call fuel does _) as [s1| | |] eqn:E1; cbn [obind] in H; try discriminate. subst n. rewrite (Mc _ _ _ E1). cbn [obind]. now apply IH.
    - destruct (acts _ (huser k)) as [s1| | |]; cbn [obind] in *; try discriminate. subst n. now apply IH. }
  set (N := S (meas W s0 c)). destruct (T N ltac:(subst N; lia)) as (s1 & E1). exists N, (log s1). intros fuel L. exists s1. split; [|reflexivity].
  unfold program. rewrite E. cbn [obind]. replace fuel with ((fuel - N) + N) by lia. induction (fuel - N) as [|k IH]; [exact E1|]. cbn [Nat.add]. now apply Me.
Qed.
Print Assumptions C40_terminates.

(** The callback may not be NULL: an assertion stops the program. *)
Theorem C40_null : forall s data, zt_atexit s 0 data = Abort.
Proof. reflexivity. Qed.

(** The hypotheses are met by a program whose callbacks register more callbacks, some of them from handlers of its own. *)
Definition ex_does (f d : nat) : list action :=
  match f with 2 => [Zatexit 3 (d + 10); Zatexit 4 (d + 20)] | 3 => [Catexit 1] | 5 => [Zatexit 6 d] | _ => [] end.
Definition ex_huser (k : nat) : list action := match k with 1 => [Zatexit 5 77] | _ => [] end.
Example C40_example : exists s, program 50 ex_does ex_huser [Zatexit 1 0; Catexit 1; Zatexit 2 1; Catexit 2] = Ok s /\
  log s = [Reg 1 0; Reg 2 1; Reg 5 77; Call 5 77; Reg 6 77; Call 6 77; Call 2 1; Reg 3 11; Reg 4 21; Call 4 21; Call 3 11; Call 1 0;
           Reg 5 77; Call 5 77; Reg 6 77; Call 6 77].
Proof.
  assert (H : match program 50 ex_does ex_huser [Zatexit 1 0; Catexit 1; Zatexit 2 1; Catexit 2] with Ok s => Some (log s) | _ => None end =
    Some [Reg 1 0; Reg 2 1; Reg 5 77; Call 5 77; Reg 6 77; Call 6 77; Call 2 1; Reg 3 11; Reg 4 21; Call 4 21; Call 3 11; Call 1 0;
           Reg 5 77; Call 5 77; Reg 6 77; Call 6 77]) by (vm_compute; reflexivity).
  destruct (program 50 ex_does ex_huser _) as [s| | |]; try discriminate. exists s. split; [reflexivity|congruence].
Qed.
Example C40_example_meets_hypotheses : (forall f d, Forall nonnull (ex_does f d)) /\ (forall k, Forall nonnull (ex_huser k)) /\
  (forall f d a, In a (ex_does f d) -> match a with Zatexit 5 _ => 2 | Catexit 1 => 3 | Zatexit 3 _ => 4 | Zatexit 2 _ => 5 | _ => 0 end <
     match Zatexit f d with Zatexit 5 _ => 2 | Catexit 1 => 3 | Zatexit 3 _ => 4 | Zatexit 2 _ => 5 | _ => 0 end).
Proof.
  split; [|split].
  - intros f d. do 6 (destruct f as [|f]; [repeat constructor; discriminate|]). constructor.
  - intros k. do 2 (destruct k as [|k]; [repeat constructor; discriminate|]). constructor.
  - intros f d a. do 6 (destruct f as [|f]; [cbn [ex_does In]; intros H; repeat (destruct H as [<-|H]; [lia|]); contradiction|]). intros [].
Qed.
