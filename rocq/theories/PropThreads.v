(** C52: the callback tables of the thread layer.  C53: making, feeding, starting and stopping a pool, with signalling pipes. *)
From Verif Require Import Prelude TimeModel TimeProofs ThreadsModel.
Local Open Scope Z_scope.

(** ** C52 *)
(** the table in force after the calls l, oldest first: the last one that was NULL or complete counts; NULL empties the table *)
Definition in_force {A} (complete : A -> bool) (empty start : A) (l : list (option A)) : A :=
  match find (fun c => match c with None => true | Some c => complete c end) (rev l) with
  | Some (Some c) => c
  | Some None => empty
  | None => start
  end.
Lemma in_force_snoc A ok (empty start : A) l c : in_force ok empty start (l ++ [c]) =
  match c with None => empty | Some x => if ok x then x else in_force ok empty start l end.
Proof. unfold in_force. rewrite rev_app_distr. cbn [rev app find]. destruct c as [x|]; [|reflexivity]. now destruct (ok x). Qed.
Lemma history A (f : A -> option A -> Z * A) (ok : A -> bool) (empty : A) : (forall t, f t None = (0, empty)) -> (forall t c, f t (Some c) = if ok c then (0, c) else (-1, t)) ->
  forall l t, fold_left (fun t c => snd (f t c)) l t = in_force ok empty t l.
Proof.
  intros H1 H2 l t. induction l as [|c l IH] using rev_ind; [reflexivity|]. rewrite fold_left_app, IH, in_force_snoc. cbn [fold_left].
  destruct c as [c|]; [rewrite H2; now destruct (ok c)|now rewrite H1].
Qed.
Definition given (f : nat) : bool := negb (f =? 0)%nat.
Definition lock_complete (c : lock_cbs) : bool := given (k_alloc c) && given (k_free c) && given (k_lock c) && given (k_unlock c).
Definition cond_complete (c : cond_cbs) : bool := given (c_alloc c) && given (c_free c) && given (c_signal c) && given (c_wait c).
Definition cntrl_complete (c : cntrl_cbs) : bool := given (t_start c) && given (t_end c).
(** After any calls, the table in force is the last complete one, unless a NULL came after it; a complete table and NULL are answered 0, an incomplete table is answered -1
    and changes nothing.  The control table is complete with start and end. *)
Theorem C52_tables : forall (ll : list (option lock_cbs)) (lc : list (option cond_cbs)) (lt : list (option cntrl_cbs)),
  fold_left (fun t c => snd (set_lock_callbacks t c)) ll no_lock = in_force lock_complete (mklock O O O O) (mklock O O O O) ll /\
  fold_left (fun t c => snd (set_cond_callbacks t c)) lc no_cond = in_force cond_complete (mkcond O O O O) (mkcond O O O O) lc /\
  fold_left (fun t c => snd (set_cntrl_callbacks t c)) lt no_cntrl = in_force cntrl_complete (mkcntrl O O O O O O) (mkcntrl O O O O O O) lt /\
  (forall t c, fst (set_lock_callbacks t c) = match c with None => 0 | Some c => if lock_complete c then 0 else -1 end) /\
  (forall t c, fst (set_cond_callbacks t c) = match c with None => 0 | Some c => if cond_complete c then 0 else -1 end) /\
  (forall t c, fst (set_cntrl_callbacks t c) = match c with None => 0 | Some c => if cntrl_complete c then 0 else -1 end).
Proof.
  intros ll lc lt. split; [apply (history _ set_lock_callbacks); [reflexivity|intros t c; cbn [set_lock_callbacks]; unfold set, lock_complete, given; now destruct (_ && _)]|].
  split; [apply (history _ set_cond_callbacks); [reflexivity|intros t c; cbn [set_cond_callbacks]; unfold set, cond_complete, given; now destruct (_ && _)]|].
  split; [apply (history _ set_cntrl_callbacks); [reflexivity|intros t c; cbn [set_cntrl_callbacks]; unfold set, cntrl_complete, given; now destruct (_ && _)]|].
  split; [|split]; intros t [c|]; try reflexivity; cbn [set_lock_callbacks set_cond_callbacks set_cntrl_callbacks]; unfold set, lock_complete, cond_complete, cntrl_complete, given; now destruct (_ && _).
Qed.
Print Assumptions C52_tables.

(** Each call goes to the callback of its name, once, and returns its result; without that callback nothing is called and the result is 0 (NULL), -1 for detach. *)
Definition goes_to (r : Z * list nat) (f : nat) (result otherwise : Z) : Prop :=
  (f <> O -> r = (result, [f])) /\ (f = O -> r = (otherwise, [])).
Theorem C52_dispatch : forall l c t ans,
  goes_to (call l c t ans AllocLock) (k_alloc l) (ans (k_alloc l)) 0 /\ goes_to (call l c t ans FreeLock) (k_free l) 0 0 /\
  goes_to (call l c t ans Lock) (k_lock l) (ans (k_lock l)) 0 /\ goes_to (call l c t ans Unlock) (k_unlock l) (ans (k_unlock l)) 0 /\
  goes_to (call l c t ans CondAlloc) (c_alloc c) (ans (c_alloc c)) 0 /\ goes_to (call l c t ans CondFree) (c_free c) 0 0 /\
  goes_to (call l c t ans CondSignal) (c_signal c) (ans (c_signal c)) 0 /\ goes_to (call l c t ans CondWait) (c_wait c) (ans (c_wait c)) 0 /\
  goes_to (call l c t ans Start) (t_start t) (ans (t_start t)) 0 /\ goes_to (call l c t ans End) (t_end t) 0 0 /\
  goes_to (call l c t ans Kill) (t_kill t) (ans (t_kill t)) 0 /\ goes_to (call l c t ans Join) (t_join t) (ans (t_join t)) 0 /\
  goes_to (call l c t ans Id) (t_id t) (ans (t_id t)) 0 /\ goes_to (call l c t ans Detach) (t_detach t) (ans (t_detach t)) (-1).
Proof.
  intros l c t ans.
  assert (V : forall f a d, goes_to (via f a d) f (a f) d).
  { intros f a d. unfold goes_to, via, set. destruct f; cbn [Nat.eqb negb]; split; congruence || reflexivity. }
  cbn [call]. repeat split; apply V || (intros; now apply (V _ _ _)).
Qed.
Print Assumptions C52_dispatch.

(** calls that change the pool's table *)
Inductive pcall := SetP (c : option pool_cbs) | DisableI | DisableO.
Definition pstep (t : pool_cbs) (c : pcall) : pool_cbs :=
  match c with SetP c => snd (set_pool_callbacks t c) | DisableI => disable_iput_loop t | DisableO => disable_oput_loop t end.
(** the last thing said, in the calls l, about something *)
Fixpoint last_said {C} (says : C -> option nat) (start : nat) (l : list C) : nat :=
  match l with [] => start | c :: r => last_said says (match says c with Some v => v | None => start end) r end.
(** what a call says about a field: NULL the value [reset]; a table its field, if not NULL; disabling a loop is saying NULL *)
Definition says (field : pool_cbs -> nat) (reset : option nat) (onI onO : option nat) (c : pcall) : option nat :=
  match c with
  | SetP None => reset
  | SetP (Some x) => if given (field x) then Some (field x) else None
  | DisableI => onI
  | DisableO => onO
  end.
(** zt_threadpool_set_callbacks changes the fields given in its table, and no other; NULL restores the library's own loops and removes init and the workers; the two disable
    functions remove the loop of their name.  The finalizer is not removed by NULL. *)
Theorem C52_pool_start : given (p_iput_loop pool0) = true /\ given (p_oput_loop pool0) = true /\ p_iput_loop pool0 <> p_oput_loop pool0 /\
  p_init pool0 = O /\ p_iput_worker pool0 = O /\ p_oput_worker pool0 = O /\ p_finalize pool0 = O.
Proof. repeat split; discriminate. Qed.
Print Assumptions C52_pool_start.

Theorem C52_pool : forall l, let t := fold_left pstep l pool0 in
  p_iput_loop t = last_said (says p_iput_loop (Some iput_loop) (Some O) None) iput_loop l /\
  p_oput_loop t = last_said (says p_oput_loop (Some oput_loop) None (Some O)) oput_loop l /\
  p_init t = last_said (says p_init (Some O) None None) O l /\
  p_iput_worker t = last_said (says p_iput_worker (Some O) None None) O l /\
  p_oput_worker t = last_said (says p_oput_worker (Some O) None None) O l /\
  p_finalize t = last_said (says p_finalize None None None) O l /\
  forall c, fst (set_pool_callbacks t c) = 0.
Proof.
  assert (G : forall l t0, let t := fold_left pstep l t0 in
    p_iput_loop t = last_said (says p_iput_loop (Some iput_loop) (Some O) None) (p_iput_loop t0) l /\
    p_oput_loop t = last_said (says p_oput_loop (Some oput_loop) None (Some O)) (p_oput_loop t0) l /\
    p_init t = last_said (says p_init (Some O) None None) (p_init t0) l /\
    p_iput_worker t = last_said (says p_iput_worker (Some O) None None) (p_iput_worker t0) l /\
    p_oput_worker t = last_said (says p_oput_worker (Some O) None None) (p_oput_worker t0) l /\
    p_finalize t = last_said (says p_finalize None None None) (p_finalize t0) l).
  { induction l as [|c l IH]; intros t0; [cbn [fold_left last_said]; auto 10|]. cbn [fold_left last_said]. specialize (IH (pstep t0 c)). cbv zeta in IH |- *.
    destruct IH as (H1 & H2 & H3 & H4 & H5 & H6). rewrite H1, H2, H3, H4, H5, H6. clear.
    destruct c as [[c|]| |]; cbn [pstep set_pool_callbacks says snd disable_iput_loop disable_oput_loop p_iput_loop p_oput_loop p_init p_iput_worker p_oput_worker p_finalize]; auto 10.
    unfold set, given. repeat split; match goal with |- context [negb (?f c =? 0)%nat] => destruct (f c =? 0)%nat; reflexivity end. }
  intros l. cbv zeta. specialize (G l pool0). cbv zeta in G. destruct G as (H1 & H2 & H3 & H4 & H5 & H6). repeat (split; [assumption|]). intros [c|]; reflexivity.
Qed.
Print Assumptions C52_pool.
(** "set our defaults" (zt_threads.c:223) leaves the finalizer of an earlier user in place: it will be called with data it knows nothing about. *)
Theorem C52_finalize_refuted : forall f, f <> O -> p_finalize (fold_left pstep [SetP (Some (mkpcbs O O O O O f)); SetP None] pool0) = f /\ p_finalize pool0 = O.
Proof. intros f H. split; [|reflexivity]. destruct f; [congruence|reflexivity]. Qed.
Print Assumptions C52_finalize_refuted.

(** Over pthreads: the non-blocking mode bit selects trylock, the lock's answer is passed on; signalling answers 0 or -1. *)
Theorem C52_pthreads_lock : forall mode a b, pthreads_lock mode (fun k => match k with Trylock => a | Mutexlock => b end) = if Z.testbit mode 0 then a else b.
Proof.
  intros mode a b. unfold pthreads_lock, NONBLOCKING. replace (Z.land mode 1 =? 0) with (negb (Z.testbit mode 0)); [now destruct (Z.testbit mode 0)|].
  rewrite Z.bit0_odd. change 1 with (Z.ones 1). rewrite Z.land_ones by lia. change (2 ^ 1) with 2. rewrite Zmod_odd. now destruct (Z.odd mode).
Qed.
Print Assumptions C52_pthreads_lock.
Theorem C52_pthreads_signal : forall broadcast a b,
  pthreads_cond_signal broadcast (fun k => match k with Broadcast => a | Signal => b end) = if (if broadcast =? 0 then b else a) =? 0 then 0 else -1.
Proof. intros broadcast a b. unfold pthreads_cond_signal. now destruct (broadcast =? 0). Qed.
Print Assumptions C52_pthreads_signal.
Lemma carry_more : forall f f' m p m', carry f m p = Ok m' -> (f <= f')%nat -> carry f' m p = Ok m'.
Proof.
  induction f as [|f IH]; intros f' m p m' E H.
  - cbn [carry] in E. destruct (1000000 <=? tv_usec (m p)) eqn:X; [discriminate E|]. destruct f'; cbn [carry]; now rewrite X.
  - destruct f' as [|f']; [lia|]. cbn [carry] in *. destruct (1000000 <=? tv_usec (m p)); [|exact E]. apply obind_ok in E. destruct E as (a & -> & E). cbn [obind].
    cbv zeta in *. apply obind_ok in E. destruct E as (b & -> & E). cbn [obind]. apply IH; [exact E|lia].
Qed.
(** Waiting with a timeout waits until exactly now + timeout, given to the system in normal form (less than 10^9 nanoseconds); the answer is 1 if the time ran out, 0 if woken up,
    -1 otherwise.  Without a timeout it is 0 or -1. *)
Theorem C52_wait : forall fuel now tv ans, normal now -> normal tv -> (1 <= fuel)%nat -> longp (tv_sec now + tv_sec tv) -> longp (tv_sec now + tv_sec tv + 1) ->
  (exists sec nsec, sec * 1000000000 + nsec = (tv_sec now + tv_sec tv) * 1000000000 + (tv_usec now + tv_usec tv) * 1000 /\ 0 <= nsec < 1000000000 /\
     pthreads_cond_wait fuel now (Some tv) ans = Ok (let a := ans (Some (sec, nsec)) in if a =? 110 then 1 else if a =? 0 then 0 else -1)) /\
  pthreads_cond_wait fuel now None ans = Ok (if ans None =? 0 then 0 else -1).
Proof.
  intros fuel now tv ans N1 N2 Hf L1 L2. split; [|reflexivity]. unfold pthreads_cond_wait.
  set (m := fun q : nat => match q with O => mktv 0 0 | S O => now | _ => tv end).
  assert (H : exists m', zt_add_time fuel m 0 1 2 = Ok m' /\ usecs (m' 0%nat) = usecs now + usecs tv /\ normal (m' 0%nat)).
  { destruct (add_correct m 0%nat 1%nat 2%nat N1 N2 L1 L2) as (m' & E & U & N & _). exists m'. split; [|auto].
    revert E. unfold zt_add_time. destruct (lck _); cbn [obind]; [|congruence|congruence|congruence]. cbv zeta.
    destruct (lck _); cbn [obind]; [|congruence|congruence|congruence]. intros E. now apply (carry_more 1). }
  destruct H as (m' & E & U & N). cbv zeta. rewrite E. cbn [obind]. unfold normal in *. unfold lck, in_long.
  replace ((-9223372036854775808 <=? tv_usec (m' 0%nat) * 1000) && (tv_usec (m' 0%nat) * 1000 <=? 9223372036854775807)) with true by lia. cbn [obind].
  exists (tv_sec (m' 0%nat)), (tv_usec (m' 0%nat) * 1000). unfold usecs in U. split; [lia|]. split; [lia|]. reflexivity.
Qed.
Print Assumptions C52_wait.

Example C52_example : let a := mklock 3%nat 4%nat 5%nat 6%nat in let b := mklock 7%nat 8%nat 9%nat 0%nat in let c := mklock 1%nat 1%nat 1%nat 1%nat in
  fold_left (fun t c => snd (set_lock_callbacks t c)) [Some c; Some a; Some b] no_lock = a /\ lock_complete a = true /\ lock_complete b = false /\
  fst (call a no_cond no_cntrl (fun f => Z.of_nat f) Lock) = 5.
Proof. cbv zeta. repeat split. Qed.
Example C52_wait_example : pthreads_cond_wait 1 (mktv 5 999999) (Some (mktv 1 2)) (fun d => match d with Some (7, 1000) => 110 | _ => 3 end) = Ok 1.
Proof. vm_compute. reflexivity. Qed.

(** ** C53 *)
(** a pipe the system made *)
Definition fresh_pipe (p : option (Z * Z)) : Prop := match p with Some (r, w) => 0 <= r /\ 0 <= w | None => True end.
(** A new pool has empty queues and is not marked as stopped, a pipe for each side it was asked for and -1 for the others.  If the first pipe cannot be made there is no pool and nothing was opened or
    closed.  If only the output pipe is asked for and cannot be made, the same. *)
Theorem C53_init : forall t n wi wo p1 p2, fresh_pipe p1 -> fresh_pipe p2 ->
  ((wi = true -> p1 <> None) -> (wo = true -> p2 <> None) -> exists p, pool_init t n wi wo p1 p2 = (Some p, []) /\ iq p = [] /\ oq p = [] /\ killed p = false /\
     (iput_fd_reader p, iput_fd_writer p) = (if wi then match p1 with Some x => x | None => (-1, -1) end else (-1, -1)) /\
     (oput_fd_reader p, oput_fd_writer p) = (if wo then match p2 with Some x => x | None => (-1, -1) end else (-1, -1))) /\
  (wi = true -> p1 = None -> pool_init t n wi wo p1 p2 = (None, [])) /\
  (wi = false -> wo = true -> p2 = None -> pool_init t n wi wo p1 p2 = (None, [])).
Proof.
  intros t n wi wo p1 p2 _ _. unfold pool_init. cbv zeta. split; [|split].
  - intros H1 H2. destruct wi, wo; try (specialize (H1 eq_refl)); try (specialize (H2 eq_refl)).
    + destruct p1 as [[r w]|]; [|congruence]. destruct p2 as [[r' w']|]; [|congruence]. eexists. split; [reflexivity|]. repeat split.
    + destruct p1 as [[r w]|]; [|congruence]. eexists. split; [reflexivity|]. repeat split.
    + destruct p2 as [[r' w']|]; [|congruence]. eexists. split; [reflexivity|]. repeat split.
    + eexists. split; [reflexivity|]. repeat split.
  - intros -> ->. reflexivity.
  - intros -> -> ->. reflexivity.
Qed.
Print Assumptions C53_init.
(** If the output pipe cannot be made after the input pipe was, the input pipe is not closed: descriptor 0 is, twice. *)
Theorem C53_init_refuted : forall t n r w, 0 < r -> 0 < w -> exists closed, pool_init t n true true (Some (r, w)) None = (None, closed) /\ ~ In r closed /\ ~ In w closed /\ In 0 closed.
Proof. intros t n r w Hr Hw. exists [0; 0]. split; [reflexivity|]. cbn [In]. lia. Qed.
Print Assumptions C53_init_refuted.

(** what a thread does with a pool: insert, take an output, read the next byte of a signalling pipe *)
Inductive act := PutI (d : Z) | PutO (d : Z) | Take | ReadI | ReadO.
(** what it learns: a return value, a piece of data, a byte *)
Definition read_pipe (q : option pipe) : outcome (Z * option pipe) :=
  match q with
  | Some q => match waiting q with [] => Loop | b :: r => Ok (b, Some (mkpipe (rd_end q) (wr_end q) r)) end
  | None => UB
  end.
Definition step (cap : nat) (p : pool) (a : act) : outcome (Z * pool) :=
  match a with
  | PutI d => insert_iput cap p d true
  | PutO d => insert_oput cap p d true
  | Take => Ok (get_oput p)
  | ReadI => ' (b, q) <- read_pipe (ipipe p) ;; Ok (b, mkpool (iq p) (oq p) q (opipe p) (min_threads p) (ithreads p) (othreads p) (killed p))
  | ReadO => ' (b, q) <- read_pipe (opipe p) ;; Ok (b, mkpool (iq p) (oq p) (ipipe p) q (min_threads p) (ithreads p) (othreads p) (killed p))
  end.
Fixpoint steps (cap : nat) (p : pool) (l : list act) : outcome (list Z * pool) :=
  match l with
  | [] => Ok ([], p)
  | a :: l => ' (v, p) <- step cap p a ;; ' (vs, p) <- steps cap p l ;; Ok (v :: vs, p)
  end.
(** counting *)
Definition puts_o (l : list act) : list Z := flat_map (fun a => match a with PutO d => [d] | _ => [] end) l.
Definition puts_i (l : list act) : list Z := flat_map (fun a => match a with PutI d => [d] | _ => [] end) l.
Definition reads_o (l : list act) : nat := length (filter (fun a => match a with ReadO => true | _ => false end) l).
Definition reads_i (l : list act) : nat := length (filter (fun a => match a with ReadI => true | _ => false end) l).
(** never more than cap bytes wait, and never is a byte read that was not written: the reader reads only when select says so *)
Fixpoint polite (cap ni no : nat) (l : list act) : Prop :=
  match l with
  | [] => True
  | PutI _ :: l => (ni < cap)%nat /\ polite cap (S ni) no l
  | PutO _ :: l => (no < cap)%nat /\ polite cap ni (S no) l
  | Take :: l => polite cap ni no l
  | ReadI :: l => (0 < ni)%nat /\ polite cap (pred ni) no l
  | ReadO :: l => (0 < no)%nat /\ polite cap ni (pred no) l
  end.
(** the data taken by the Take actions of l from a queue q: the head, or 0 if there is none *)
Fixpoint taken (q : list Z) (l : list act) : list Z :=
  match l with
  | [] => []
  | PutO d :: l => 0 :: taken (q ++ [d]) l
  | Take :: l => match q with [] => 0 :: taken [] l | d :: q => d :: taken q l end
  | _ :: l => 0 :: taken q l
  end.
Fixpoint left_over (q : list Z) (l : list act) : list Z :=
  match l with
  | [] => q
  | PutO d :: l => left_over (q ++ [d]) l
  | Take :: l => left_over (tl q) l
  | _ :: l => left_over q l
  end.
(** For every sequence of actions of a pool with both pipes and no loops: each insertion writes one byte, 0, to the pipe of its side, so as many bytes wait as there were insertions not
    yet read; outputs come out in the order they were put in, 0 when there are none; inputs keep their order. *)
Theorem C53_signals : forall cap t n pi po p, pool_init t n true true (Some pi) (Some po) = (Some p, []) -> forall l, polite cap 0 0 l ->
  exists p', steps cap p l = Ok (taken [] l, p') /\ iq p' = puts_i l /\ oq p' = left_over [] l /\
    (exists q, ipipe p' = Some q /\ (rd_end q, wr_end q) = pi /\ waiting q = repeat 0 (length (puts_i l) - reads_i l)) /\
    (exists q, opipe p' = Some q /\ (rd_end q, wr_end q) = po /\ waiting q = repeat 0 (length (puts_o l) - reads_o l)).
Proof.
  intros cap t n [ri wi] [ro wo] p E l. unfold pool_init in E. cbv zeta in E.
  assert (G : forall l p ni no qi, ipipe p = Some (mkpipe ri wi (repeat 0 ni)) -> opipe p = Some (mkpipe ro wo (repeat 0 no)) -> iq p = qi -> polite cap ni no l ->
    exists p', steps cap p l = Ok (taken (oq p) l, p') /\ iq p' = qi ++ puts_i l /\ oq p' = left_over (oq p) l /\ (reads_i l <= ni + length (puts_i l))%nat /\ (reads_o l <= no + length (puts_o l))%nat /\
      ipipe p' = Some (mkpipe ri wi (repeat 0 (ni + length (puts_i l) - reads_i l))) /\ opipe p' = Some (mkpipe ro wo (repeat 0 (no + length (puts_o l) - reads_o l)))).
  { clear. induction l as [|a l IH]; intros p ni no qi Hi Ho Hq Hp.
    - exists p. cbn [steps taken left_over puts_i puts_o flat_map reads_i reads_o filter length]. rewrite app_nil_r, !Nat.add_0_r, !Nat.sub_0_r. repeat split; try assumption; lia.
    - assert (SN : forall k, repeat 0 k ++ [0] = repeat 0 (S k)) by (intros k; change [0] with (repeat 0 1); rewrite <- repeat_app; f_equal; lia).
      destruct a as [d|d| | |]; cbn [polite] in Hp; cbn [steps step].
      + destruct Hp as (H1 & Hp). unfold insert_iput, put. rewrite Hi. cbn [waiting]. rewrite repeat_length. replace (ni <? cap)%nat with true by (symmetry; now apply Nat.ltb_lt). cbn [obind rd_end wr_end]. rewrite SN.
        edestruct (IH (mkpool (iq p ++ [d]) (oq p) (Some (mkpipe ri wi (repeat 0 (S ni)))) (opipe p) (min_threads p) (ithreads p) (othreads p) (killed p)) (S ni) no (qi ++ [d])) as (p' & S1 & S2 & S3 & S4 & S5 & S6 & S7);
          [reflexivity|exact Ho|cbn [iq]; now rewrite Hq|exact Hp|]. cbn [oq iq] in *. rewrite S1. cbn [obind]. exists p'.
        cbn [taken left_over puts_i puts_o flat_map app reads_i reads_o filter length]. fold (puts_i l) (puts_o l) (reads_i l) (reads_o l) in *.
        split; [reflexivity|]. split; [rewrite S2; rewrite <- app_assoc; reflexivity|]. split; [exact S3|]. split; [lia|]. split; [lia|]. split; [rewrite S6; do 3 f_equal; lia|exact S7].
      + destruct Hp as (H1 & Hp). unfold insert_oput, put. rewrite Ho. cbn [waiting]. rewrite repeat_length. replace (no <? cap)%nat with true by (symmetry; now apply Nat.ltb_lt). cbn [obind rd_end wr_end]. rewrite SN.
        edestruct (IH (mkpool (iq p) (oq p ++ [d]) (ipipe p) (Some (mkpipe ro wo (repeat 0 (S no)))) (min_threads p) (ithreads p) (othreads p) (killed p)) ni (S no) qi) as (p' & S1 & S2 & S3 & S4 & S5 & S6 & S7);
          [exact Hi|reflexivity|exact Hq|exact Hp|]. cbn [oq iq] in *. rewrite S1. cbn [obind]. exists p'.
        cbn [taken left_over puts_i puts_o flat_map app reads_i reads_o filter length]. fold (puts_i l) (puts_o l) (reads_i l) (reads_o l) in *.
        split; [reflexivity|]. split; [exact S2|]. split; [exact S3|]. split; [lia|]. split; [lia|]. split; [exact S6|rewrite S7; do 3 f_equal; lia].
      + unfold get_oput. cbn [taken left_over puts_i puts_o flat_map app reads_i reads_o filter length]. fold (puts_i l) (puts_o l) (reads_i l) (reads_o l) in *.
        destruct (oq p) as [|d q] eqn:Q.
        * cbn [obind]. destruct (IH p ni no qi Hi Ho Hq Hp) as (p' & S1 & S2 & S3 & S4). rewrite S1, Q in *. cbn [obind tl]. exists p'. auto.
        * cbn [obind]. edestruct (IH (mkpool (iq p) q (ipipe p) (opipe p) (min_threads p) (ithreads p) (othreads p) (killed p)) ni no qi) as (p' & S1 & S2 & S3 & S4);
            [exact Hi|exact Ho|exact Hq|exact Hp|]. cbn [oq iq] in *. rewrite S1. cbn [obind tl]. exists p'. auto.
      + destruct Hp as (H1 & Hp). unfold read_pipe. rewrite Hi. cbn [waiting]. destruct ni as [|ni]; [lia|]. cbn [repeat obind rd_end wr_end pred] in *.
        edestruct (IH (mkpool (iq p) (oq p) (Some (mkpipe ri wi (repeat 0 ni))) (opipe p) (min_threads p) (ithreads p) (othreads p) (killed p)) ni no qi) as (p' & S1 & S2 & S3 & S4 & S5 & S6 & S7);
          [reflexivity|exact Ho|exact Hq|exact Hp|]. cbn [oq iq] in *. rewrite S1. cbn [obind]. exists p'.
        cbn [taken left_over puts_i puts_o flat_map app reads_i reads_o filter length]. fold (puts_i l) (puts_o l) (reads_i l) (reads_o l) in *.
        split; [reflexivity|]. split; [exact S2|]. split; [exact S3|]. split; [lia|]. split; [lia|]. split; [rewrite S6; do 3 f_equal; lia|exact S7].
      + destruct Hp as (H1 & Hp). unfold read_pipe. rewrite Ho. cbn [waiting]. destruct no as [|no]; [lia|]. cbn [repeat obind rd_end wr_end pred] in *.
        edestruct (IH (mkpool (iq p) (oq p) (ipipe p) (Some (mkpipe ro wo (repeat 0 no))) (min_threads p) (ithreads p) (othreads p) (killed p)) ni no qi) as (p' & S1 & S2 & S3 & S4 & S5 & S6 & S7);
          [exact Hi|reflexivity|exact Hq|exact Hp|]. cbn [oq iq] in *. rewrite S1. cbn [obind]. exists p'.
        cbn [taken left_over puts_i puts_o flat_map app reads_i reads_o filter length]. fold (puts_i l) (puts_o l) (reads_i l) (reads_o l) in *.
        split; [reflexivity|]. split; [exact S2|]. split; [exact S3|]. split; [lia|]. split; [lia|]. split; [exact S6|rewrite S7; do 3 f_equal; lia]. }
  intros Hp. assert (X : ipipe p = Some (mkpipe ri wi []) /\ opipe p = Some (mkpipe ro wo []) /\ iq p = [] /\ oq p = []).
  { match type of E with (Some ?x, _) = _ => assert (p = x) by congruence end. subst p. repeat split. }
  destruct X as (X1 & X2 & X3 & X4). destruct (G l p 0%nat 0%nat [] X1 X2 X3 Hp) as (p' & S1 & S2 & S3 & S4 & S5 & S6 & S7). rewrite X4 in S1, S3.
  exists p'. split; [exact S1|]. split; [exact S2|]. split; [exact S3|]. split; eexists; (split; [eassumption|]); split; reflexivity.
Qed.
Print Assumptions C53_signals.

(** A pipe that is full blocks the insertion, while it holds the queue's lock. *)
Theorem C53_full_pipe_refuted : forall cap p d q, opipe p = Some q -> (cap <= length (waiting q))%nat -> insert_oput cap p d true = Loop.
Proof. intros cap p d q H L. unfold insert_oput, put. rewrite H. replace (length (waiting q) <? cap)%nat with false by (symmetry; apply Nat.ltb_ge; lia). reflexivity. Qed.
Print Assumptions C53_full_pipe_refuted.
(** An insertion that reports failure has inserted the data all the same. *)
Theorem C53_failed_insert_refuted : forall cap p d q, opipe p = Some q -> exists p', insert_oput cap p d false = Ok (-1, p') /\ oq p' = oq p ++ [d].
Proof. intros cap p d q H. unfold insert_oput, put. rewrite H. cbn [obind]. eexists. split; reflexivity. Qed.
Print Assumptions C53_failed_insert_refuted.

(** An insertion whose write to the pipe fails answers -1, one without a pipe answers 0; what was in the pipe and the other queue are as before. *)
Theorem C53_write_fails : forall cap p d q, (ipipe p = Some q -> exists p', insert_iput cap p d false = Ok (-1, p') /\ ipipe p' = Some q /\ oq p' = oq p /\ opipe p' = opipe p /\ iq p' = iq p ++ [d]) /\
  (opipe p = Some q -> exists p', insert_oput cap p d false = Ok (-1, p') /\ opipe p' = Some q /\ iq p' = iq p /\ ipipe p' = ipipe p /\ oq p' = oq p ++ [d]) /\
  (forall ok, ipipe p = None -> exists p', insert_iput cap p d ok = Ok (0, p') /\ iq p' = iq p ++ [d] /\ oq p' = oq p) /\
  (forall ok, opipe p = None -> exists p', insert_oput cap p d ok = Ok (0, p') /\ oq p' = oq p ++ [d] /\ iq p' = iq p).
Proof.
  intros cap p d q. unfold insert_iput, insert_oput, put. repeat split; intros; try match goal with H : _ = Some q |- _ => rewrite H end; try match goal with H : _ = None |- _ => rewrite H end; cbn [obind]; eexists; repeat split; assumption.
Qed.
Print Assumptions C53_write_fails.

(** zt_threadpool_kill, when it returns, answers -1 exactly when one of its writes failed; the queues keep their entries. *)
Theorem C53_kill_answer : forall cap t p ok1 ok2 r p', pool_kill cap t p ok1 ok2 = Ok (r, p') ->
  (r = -1 \/ r = 0) /\ (r = -1 <-> (opipe p <> None /\ ok1 = false) \/ (ipipe p <> None /\ ok2 = false)) /\ killed p' = true /\ iq p' = iq p /\ oq p' = oq p.
Proof.
  intros cap t p ok1 ok2 r p' E. unfold pool_kill in E. apply obind_ok in E. destruct E as (? & _ & E). apply obind_ok in E. destruct E as (? & _ & E). apply obind_ok in E. destruct E as ((r1 & po) & E1 & E). apply obind_ok in E. destruct E as ((r2 & pi) & E2 & E).
  assert (Er : r = if (r1 <? 0) || (r2 <? 0) then -1 else 0) by congruence. assert (Ep : p' = mkpool (iq p) (oq p) pi po (min_threads p) (ithreads p) (othreads p) true) by congruence.
  assert (P : forall q x ok y q', put cap q x ok = Ok (y, q') -> (y = -1 /\ q <> None /\ ok = false) \/ (y = 0 /\ (q = None \/ ok = true))).
  { clear. intros q x ok y q' H. unfold put in H. destruct q as [q|]; [|right; split; [congruence|now left]]. destruct ok; [|left; repeat split; congruence]. destruct (length (waiting q) <? cap)%nat; [|discriminate]. right. split; [congruence|now right]. }
  apply P in E1, E2. subst p'. cbn [killed iq oq]. split; [rewrite Er; destruct ((r1 <? 0) || (r2 <? 0)); auto|]. split; [|auto]. rewrite Er.
  destruct E1 as [(-> & A1 & B1)|(-> & A1)], E2 as [(-> & A2 & B2)|(-> & A2)]; cbn [Z.ltb orb Z.compare]; split; intros X; try discriminate X; auto; exfalso; destruct X as [(X1 & X2)|(X1 & X2)]; intuition congruence.
Qed.
Print Assumptions C53_kill_answer.

(** Started with the loops in force at its making, and every thread started, a pool can be stopped; stopping answers 0 and writes one more byte to each pipe: 1 to the output
    side, the low byte of the number of threads to the input side. *)
Theorem C53_start_kill : forall cap t n wi wo p1 p2 p gives, pool_init t n wi wo p1 p2 = (Some p, []) -> 0 <= n -> (1 <= cap)%nat -> (forall k, gives k = true) ->
  exists p', pool_start t p gives = Ok (0, p') /\ iq p' = [] /\ oq p' = [] /\ iput_fd_writer p' = iput_fd_writer p /\ oput_fd_writer p' = oput_fd_writer p /\
    (given (p_iput_loop t) = true -> ithreads p' = repeat Running (Z.to_nat n)) /\ (given (p_oput_loop t) = true -> 0 < n -> othreads p' = Some (repeat Running (Z.to_nat n))) /\
    exists p'', pool_kill cap t p' true true = Ok (0, p'') /\ killed p'' = true /\
      (forall q, opipe p'' = Some q -> waiting q = [1]) /\ (forall q, ipipe p'' = Some q -> waiting q = [n mod 256]).
Proof.
  intros cap t n wi wo p1 p2 p gives E Hn Hc Hg.
  assert (SL : forall k j, start_loop k j gives = repeat Running k) by (induction k as [|k IH]; intros j; cbn [start_loop repeat]; [reflexivity|now rewrite Hg, IH]).
  assert (J : forall k, join_all (repeat Running k) = Ok tt) by (intros k; unfold join_all; replace (forallb _ (repeat Running k)) with true; [reflexivity|]; symmetry; apply forallb_forall; intros x Hx; apply repeat_spec in Hx; now subst).
  assert (X : iq p = [] /\ oq p = [] /\ min_threads p = n /\ ithreads p = repeat Empty (Z.to_nat n) /\ othreads p = (if set (p_oput_loop t) then Some (repeat Empty (Z.to_nat n)) else None) /\
              (forall q, ipipe p = Some q -> waiting q = []) /\ (forall q, opipe p = Some q -> waiting q = [])).
  { unfold pool_init in E. cbv zeta in E. destruct wi; [destruct p1 as [[r w]|]; [|congruence]|]; (destruct wo; [destruct p2 as [[r' w']|]; [|congruence]|]);
    match type of E with (Some ?x, _) = _ => assert (p = x) by congruence end; subst p; cbn [iq oq min_threads ithreads othreads ipipe opipe]; repeat split;
    intros q Hq; try discriminate Hq; match type of Hq with Some ?x = _ => assert (q = x) by congruence end; now subst q. }
  destruct X as (X1 & X2 & X3 & X4 & X5 & X6 & X7).
  unfold pool_start. rewrite X3. change (given (p_iput_loop t)) with (set (p_iput_loop t)). change (given (p_oput_loop t)) with (set (p_oput_loop t)).
  set (it := if set (p_iput_loop t) then start_loop (Z.to_nat n) 0 gives else ithreads p).
  assert (IT : set (p_iput_loop t) = true -> it = repeat Running (Z.to_nat n)) by (unfold it; intros ->; apply SL). clearbody it.
  assert (OT : exists ot, (if set (p_oput_loop t) && negb (Z.to_nat n =? 0)%nat then match othreads p with None => UB
      | Some _ => Ok (Some (start_loop (Z.to_nat n) (if set (p_iput_loop t) then Z.to_nat n else 0%nat) gives)) end else Ok (othreads p)) = Ok ot /\
      (set (p_oput_loop t) = true -> ot = Some (repeat Running (Z.to_nat n)))).
  { rewrite X5. destruct (set (p_oput_loop t)); cbn [andb]; [|eexists; split; [reflexivity|discriminate]].
    destruct (Nat.eqb_spec (Z.to_nat n) 0) as [N0|N0]; cbn [negb]; eexists; (split; [reflexivity|intros _]); [rewrite N0; reflexivity|f_equal; apply SL]. }
  destruct OT as (ot & OT1 & OT2). cbv zeta. rewrite OT1. cbn [obind]. eexists. split; [reflexivity|]. cbn [iq oq ithreads othreads].
  split; [exact X1|]. split; [exact X2|]. split; [reflexivity|]. split; [reflexivity|]. split; [exact IT|]. split; [intros H _; exact (OT2 H)|].
  unfold pool_kill. cbn [ithreads othreads min_threads ipipe opipe iq oq].
  assert (K1 : (if set (p_iput_loop t) then join_all it else Ok tt) = Ok tt) by (destruct (set (p_iput_loop t)); [rewrite (IT eq_refl); apply J|reflexivity]). rewrite K1. cbn [obind].
  assert (K2 : (if set (p_oput_loop t) then match ot with Some l => join_all l | None => if 0 <? n then UB else Ok tt end else Ok tt) = Ok tt)
    by (destruct (set (p_oput_loop t)); [rewrite (OT2 eq_refl); apply J|reflexivity]). rewrite K2. cbn [obind].
  assert (P : forall q x, (forall y, q = Some y -> waiting y = []) -> exists q', put cap q x true = Ok (0, q') /\ forall y, q' = Some y -> waiting y = [x]).
  { intros [y|] x Hy; cbn [put]; [|eexists; split; [reflexivity|discriminate]]. rewrite (Hy y eq_refl). cbn [length]. replace (0 <? cap)%nat with true by (symmetry; apply Nat.ltb_lt; lia).
    eexists. split; [reflexivity|]. intros z Hz. match type of Hz with Some ?v = _ => assert (z = v) by congruence end. now subst z. }
  destruct (P (opipe p) 1 X7) as (po & Po1 & Po2). destruct (P (ipipe p) (Z.max 0 n mod 256) X6) as (pi & Pi1 & Pi2). rewrite Po1. cbn [obind]. rewrite Pi1. cbn [obind].
  change ((0 <? 0) || (0 <? 0)) with false. cbv iota. eexists. split; [reflexivity|]. cbn [killed opipe ipipe]. split; [reflexivity|]. split; [exact Po2|]. rewrite Z.max_r in Pi2 by lia. exact Pi2.
Qed.
Print Assumptions C53_start_kill.
(** So with 256 threads the byte that tells the input side of the end is the same as that of an insertion. *)
Theorem C53_kill_byte_refuted : exists cap t p p', pool_init t 256 true false (Some (3, 4)) None = (Some p, []) /\ p_iput_loop t = O /\ p_oput_loop t = O /\
  pool_kill cap t p true true = Ok (0, p') /\ exists q, ipipe p' = Some q /\ waiting q = [0].
Proof. exists 1%nat, (mkpcbs O O O O O O). do 2 eexists. split; [reflexivity|]. split; [reflexivity|]. split; [reflexivity|]. split; [vm_compute; reflexivity|]. eexists. split; reflexivity. Qed.
Print Assumptions C53_kill_byte_refuted.
(** Starting a pool reports success although not a single thread was started; stopping it then joins threads that do not exist. *)
Theorem C53_start_refuted : forall cap t n wi wo p1 p2 p, pool_init t n wi wo p1 p2 = (Some p, []) -> 0 < n -> given (p_iput_loop t) = true -> 
  exists p', pool_start t p (fun _ => false) = Ok (0, p') /\ forall o1 o2, pool_kill cap t p' o1 o2 = UB.
Proof.
  intros cap t n wi wo p1 p2 p E Hn Hi.
  assert (X : min_threads p = n /\ othreads p = (if set (p_oput_loop t) then Some (repeat Empty (Z.to_nat n)) else None)).
  { unfold pool_init in E. cbv zeta in E. destruct wi; [destruct p1 as [[r w]|]; [|congruence]|]; (destruct wo; [destruct p2 as [[r' w']|]; [|congruence]|]);
    match type of E with (Some ?x, _) = _ => assert (p = x) by congruence end; subst p; split; reflexivity. }
  destruct X as (X1 & X2). unfold pool_start. rewrite X1, X2. cbv zeta. change (given (p_iput_loop t)) with (set (p_iput_loop t)) in Hi. rewrite Hi.
  destruct (Z.to_nat n) as [|k] eqn:K; [lia|]. cbn [start_loop Nat.eqb negb]. destruct (set (p_oput_loop t)) eqn:So; cbn [andb obind];
    (eexists; split; [reflexivity|]; intros o1 o2; unfold pool_kill; rewrite Hi; reflexivity).
Qed.
Print Assumptions C53_start_refuted.
(** A pool made while the output loop was disabled has nowhere to keep output threads: if the loop is set before it is started, a NULL pointer is written to. *)
Theorem C53_toggle_refuted : forall n wi p1 p gives, pool_init (disable_oput_loop pool0) n wi false p1 None = (Some p, []) -> 0 < n ->
  pool_start (snd (set_pool_callbacks (disable_oput_loop pool0) None)) p gives = UB.
Proof.
  intros n wi p1 p gives E Hn. assert (X : min_threads p = n /\ othreads p = None).
  { unfold pool_init in E. cbv zeta in E. destruct wi; [destruct p1 as [[r w]|]; [|congruence]|]; match type of E with (Some ?x, _) = _ => assert (p = x) by congruence end; subst p; split; reflexivity. }
  destruct X as (X1 & X2). unfold pool_start. rewrite X1, X2. cbn [set_pool_callbacks snd p_iput_loop p_oput_loop]. change (set oput_loop) with true. destruct (Z.to_nat n) as [|k] eqn:K; [lia|]. reflexivity.
Qed.
Print Assumptions C53_toggle_refuted.

Definition acts1 : list act := [PutO 7; PutI 5; PutO 8; ReadO; Take; PutO 9; Take; ReadO].
Example C53_example : exists p p' q, pool_init pool0 2 true true (Some (3, 4)) (Some (5, 6)) = (Some p, []) /\ polite 2 0 0 acts1 /\
  steps 2 p acts1 = Ok ([0; 0; 0; 0; 7; 0; 8; 0], p') /\ oq p' = [9] /\ iq p' = [5] /\ opipe p' = Some q /\ waiting q = [0] /\ oput_fd_reader p' = 5.
Proof. do 3 eexists. split; [reflexivity|]. split; [cbn; lia|]. split; [vm_compute; reflexivity|]. repeat split. Qed.
