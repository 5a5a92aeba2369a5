(** C74: zt_log used by several threads.  Model: LraceModel.v; vocabulary: LraceSpec.v. *)
From Verif Require Import Prelude Heap CstrModel LogModel LogSpec LogProofs LraceModel LraceSpec LraceProofs LraceCalm.
From Coq Require Import Permutation.
Local Open Scope Z_scope.

(** Any number of threads that print messages and install default loggers, run in any interleaving, never do anything undefined; and at every moment what each
    thread has printed is what its finished calls say, each message once and in order, with the position given with it and not another thread's,
    on the logger it named or on one that was the default logger at some time, if its level is within that logger's. *)
Theorem C74_messages : forall e g ps sched, env_ok e -> env_plain e -> fresh_start g -> (forall p o, In p ps -> In o p -> calm (lgs g) o) ->
  exists w, run e (start g ps) sched = Ok w /\ length (ths w) = length ps /\
    forall i t, nth_error (ths w) i = Some t -> nth_error ps i = Some (ran t ++ todo t) /\
      prints e (lgs (gl w)) (default_at_some_time g ps) (ran t) (by_thread i (out (gl w))).
Proof.
  intros e g ps sched He Hp H0 HC. destruct (inv_run e g ps He Hp H0 HC sched _ (inv_start e g ps H0)) as (w & R & I). exists w. split; [exact R|]. split; [rewrite <- (i_prog _ _ _ _ I); now rewrite map_length|].
  intros i t N. split; [|exact (i_out _ _ _ _ I i t N)]. pose proof (map_nth_error (fun t => ran t ++ todo t) _ _ N) as X. now rewrite (i_prog _ _ _ _ I) in X.
Qed.
Print Assumptions C74_messages.

(** However many threads need a default logger when there is none, at most one is made, and only then; it is given to zt_atexit once.  No other logger changes. *)
Theorem C74_default_once : forall e g ps sched w, env_ok e -> env_plain e -> fresh_start g -> (forall p o, In p ps -> In o p -> calm (lgs g) o) ->
  run e (start g ps) sched = Ok w -> finished w ->
  (lgs (gl w) = lgs g /\ exits (gl w) = exits g) \/
  (dflt g = 0%nat /\ exits (gl w) = fresh (lgs g) :: exits g /\ cells (lgs (gl w)) (fresh (lgs g)) = Some made /\ forall q, q <> fresh (lgs g) -> cells (lgs (gl w)) q = cells (lgs g) q).
Proof.
  intros e g ps sched w He Hp H0 HC R F. destruct (inv_run e g ps He Hp H0 HC sched _ (inv_start e g ps H0)) as (w' & R' & I). assert (w' = w) by congruence. subst w'.
  destruct (i_glob _ _ _ _ I) as [_ [(A & B & _)|(A & B & C & D)]]; [now left|]. right. split; [exact A|]. destruct D as [D|(_ & j & t & N & G)].
  - split; [exact D|]. rewrite B. split; [apply new_live|]. intros q Hq. cbn [h1 alloc snd cells]. apply Nat.eqb_neq in Hq. now rewrite Hq.
  - exfalso. pose proof (busy_run _ _ _ _ (busy_start g ps) R j t N) as K. pose proof (F t (nth_error_In _ _ N)) as T. unfold busy in K. destruct (at_ t); try discriminate. apply K; [discriminate|exact T].
Qed.
Print Assumptions C74_default_once.

(** Loggers are handed on, none lost and none given twice: when all is done, the loggers that zt_log_logger returned to some thread, with the one that is now the default,
    are the one that was the default at the start, those installed and the one made if one was (0 is NULL). *)
Theorem C74_handed_on : forall e g ps sched w, env_ok e -> env_plain e -> fresh_start g -> (forall p o, In p ps -> In o p -> calm (lgs g) o) ->
  run e (start g ps) sched = Ok w -> finished w ->
  exists made_one, (made_one = [] \/ made_one = [fresh (lgs g)]) /\ length (exits (gl w)) = (length made_one + length (exits g))%nat /\
    Permutation (real (dflt (gl w) :: concat (map got (ths w)))) (real (dflt g :: concat (map installs ps)) ++ made_one).
Proof.
  intros e g ps sched w He Hp H0 HC R F. pose proof (C74_default_once e g ps sched w He Hp H0 HC R F) as DO.
  destruct (inv_run e g ps He Hp H0 HC sched _ (inv_start e g ps H0)) as (w' & R' & I). assert (w' = w) by congruence. subst w'.
  exists (if (fresh (lgs (gl w)) =? fresh (lgs g))%nat then [] else [fresh (lgs g)]). split; [destruct (_ =? _)%nat; auto|].
  assert (LE : length (exits (gl w)) = (length (if (fresh (lgs (gl w)) =? fresh (lgs g))%nat then [] else [fresh (lgs g)]) + length (exits g))%nat).
  { destruct DO as [(A & B)|(A & B & C & D)]; [rewrite A, B, Nat.eqb_refl; reflexivity|]. rewrite B. destruct (Nat.eqb_spec (fresh (lgs (gl w))) (fresh (lgs g))) as [X|X]; [|reflexivity]. exfalso.
    destruct (i_glob _ _ _ _ I) as [_ [(G1 & _)|(_ & G & _)]]; [|rewrite G in X; cbn [h1 alloc snd fresh] in X; lia]. rewrite G1 in C. destruct H0 as (W & _). rewrite (wf_fresh _ W) in C. discriminate. }
  split; [exact LE|].
  assert (B : forall i t, nth_error (ths w) i = Some t -> at_ t = Idle). { intros i t N. pose proof (busy_run _ _ _ _ (busy_start g ps) R i t N) as K. pose proof (F t (nth_error_In _ _ N)) as T. unfold busy in K. destruct (at_ t); try reflexivity; exfalso; (apply K; [discriminate|exact T]). }
  assert (S1 : forall x, sum x took (ths w) = cnt x (concat (map got (ths w)))).
  { intros x. assert (B' : forall t, In t (ths w) -> at_ t = Idle) by (intros t J; apply In_nth_error in J; destruct J as [i J]; exact (B i t J)). clear - B'. unfold sum. induction (ths w) as [|t l IH]; [reflexivity|]. cbn [map list_sum fold_right concat]. fold (list_sum (map (fun t => cnt x (took t)) l)). rewrite cnt_app, IH by (intros y J; apply B'; now right). unfold took. rewrite (B' t (or_introl eq_refl)), app_nil_r. reflexivity. }
  assert (S2 : forall x, sum x gave (ths w) = cnt x (concat (map installs ps))).
  { intros x. rewrite <- (i_prog _ _ _ _ I). assert (B' : forall t, In t (ths w) -> at_ t = Idle) by (intros t J; apply In_nth_error in J; destruct J as [i J]; exact (B i t J)). clear - B' F. unfold finished in F. unfold sum. induction (ths w) as [|t l IH]; [reflexivity|]. cbn [map list_sum fold_right concat]. fold (list_sum (map (fun t => cnt x (gave t)) l)). rewrite cnt_app, IH; [|intros y J; apply F; now right|intros y J; apply B'; now right]. unfold gave. rewrite (B' t (or_introl eq_refl)), (F t (or_introl eq_refl)), !app_nil_r. reflexivity. }
  assert (RC : forall x l, count_occ Nat.eq_dec (real l) x = if (x =? 0)%nat then 0%nat else cnt x l).
  { intros x l. unfold real, cnt. induction l as [|y l IH]; cbn [filter count_occ]; [now destruct (x =? 0)%nat|]. destruct (Nat.eqb_spec y 0) as [->|NY]; cbn [negb count_occ]; destruct (Nat.eqb_spec x 0) as [->|NX].
    - exact IH. - destruct (Nat.eq_dec 0 x); [congruence|]. exact IH. - destruct (Nat.eq_dec y 0); [congruence|]. exact IH. - destruct (Nat.eq_dec y x); [f_equal; exact IH|exact IH]. }
  apply (Permutation_count_occ Nat.eq_dec). intros x. rewrite count_occ_app, !RC. destruct (Nat.eqb_spec x 0) as [->|NX].
  - destruct (_ =? _)%nat; [reflexivity|]. cbn [count_occ]. destruct (Nat.eq_dec (fresh (lgs g)) 0) as [Z|]; [|reflexivity]. exfalso. exact (new_pos g H0 Z).
  - pose proof (i_cnt _ _ _ _ I x NX) as C. rewrite S1, S2 in C. unfold extra in C. unfold cnt in *. cbn [count_occ] in *. unfold new in C. destruct (Nat.eq_dec (dflt (gl w)) x), (Nat.eq_dec (dflt g) x), (_ =? _)%nat; cbn [count_occ] in *; lia.
Qed.
Print Assumptions C74_handed_on.

(** Whatever the threads do (closing and uninstalling included), they never all wait: while a call is unfinished some thread can go on.  And no call needs more than ten steps,
    so that however the threads are interleaved all calls return. *)
Theorem C74_progress : forall e g ps sched w, mutex g = None -> run e (start g ps) sched = Ok w -> ~ finished w ->
  exists i t, nth_error (ths w) i = Some t /\ tstep e i (gl w) t <> Ok None.
Proof.
  intros e g ps sched w M R F. pose proof (minv_run _ _ _ _ (minv_start g ps M) R) as Mi.
  destruct (mutex (gl w)) as [j|] eqn:Q.
  - destruct (m_held _ Mi j Q) as (t & N & L). exists j, t. split; [exact N|]. unfold tstep. destruct (at_ t); try discriminate.
  - assert (X : exists t, In t (ths w) /\ todo t <> []).
    { unfold finished in F. clear - F. induction (ths w) as [|t l IH]; [exfalso; apply F; intros t []|]. destruct (todo t) as [|o r] eqn:T; [|exists t; split; [now left|congruence]]. destruct IH as (y & Y1 & Y2); [|exists y; split; [now right|exact Y2]]. intros A. apply F. intros y [<-|J]; [exact T|now apply A]. }
    destruct X as (t & J & T). apply In_nth_error in J. destruct J as [i N]. exists i, t. split; [exact N|]. unfold tstep. destruct (at_ t) as [|w0|w0|w0|w0|w0|w0|w0|p c|p c|p last c|p last c|p level fmt args|p level fmt args|p]; try discriminate.
    + destruct (todo t) as [|[log d level fmt args|log|log] r]; [congruence|discriminate..].
    + rewrite Q. discriminate.
    + destruct w0; discriminate.
    + rewrite Q. discriminate.
    + destruct (load _ _); cbn [obind]; discriminate.
    + destruct (load _ _) as [l| | |]; cbn [obind]; try discriminate. destruct (_ <? _); [discriminate|]. destruct (print _ _ _ _ _ _ _ _); cbn [obind]; discriminate.
    + destruct (release _ _); cbn [obind]; discriminate.
Qed.
Print Assumptions C74_progress.
Theorem C74_terminates : forall e g ps n w, moves e n (start g ps) w -> (n <= 10 * length (concat ps))%nat.
Proof.
  intros e g ps n w M. pose proof (moves_total _ _ _ _ M (busy_start g ps)) as T. assert (X : total (ths (start g ps)) = (10 * length (concat ps))%nat); [|lia].
  unfold total. cbn [start ths]. rewrite map_map. induction ps as [|p r IH]; [reflexivity|]. cbn [map list_sum fold_right concat]. rewrite app_length. fold (list_sum (map (fun p => weight (mkthread p Idle None [] [])) r)).
  assert (M' : list_sum (map (fun p => weight (mkthread p Idle None [] [])) r) = (10 * length (concat r))%nat). { clear. induction r as [|q r IH]; [reflexivity|]. cbn [map list_sum fold_right concat]. fold (list_sum (map (fun p => weight (mkthread p Idle None [] [])) r)). rewrite app_length, IH. unfold weight. cbn [todo at_ stage]. lia. }
  rewrite M'. unfold weight. cbn [todo at_ stage]. lia.
Qed.
Print Assumptions C74_terminates.

(** ** What is not true *)
(** examples: an environment; loggers 1 and 2 on stderr, everything shown, raw; 1 is the default *)
Definition e1 : env := mkenv [] None [] 7.
Definition two_loggers : heap logger := snd (alloc (snd (alloc (mkheap (fun _ => None) 1) (mklogger Stderr 0 8))) (mklogger Stderr 0 8)).
Definition g1 : shared := mkshared two_loggers 1 None [] [].
Definition g2 : shared := mkshared two_loggers 0 None [] [].
(** message 'x' to the default logger *)
Definition hello (c : Z) : op := Print 0 None 3 [c] [].
(** all threads one after the other, each to its end *)
Definition in_turn (order : list nat) : list nat := flat_map (fun i => repeat i 30) order.
Definition seen (w : outcome world) : option (nat * list (nat * (nat * text)) * list (list nat)) := match w with Ok w => Some (dflt (gl w), out (gl w), map got (ths w)) | _ => None end.
Definition over (w : outcome world) : bool := match w with Ok w => forallb (fun t => match todo t with [] => true | _ => false end) (ths w) | _ => false end.

(** A message can be lost: if the default logger is uninstalled (zt_log_logger(NULL)) between the two readings of it by another thread's message, that message is printed nowhere.
    Run one after the other, in either order, the two calls print it. *)
Theorem C74_lost_message_refuted : exists sched, let ps := [[hello 65]; [Logger 0]] in
  over (run e1 (start g1 ps) sched) = true /\ seen (run e1 (start g1 ps) sched) = Some (0%nat, [], [[]; [1%nat]]) /\
  seen (run e1 (start g1 ps) (in_turn [0; 1]%nat)) = Some (0%nat, [(0%nat, (1%nat, [65; 10]))], [[]; [1%nat]]) /\
  seen (run e1 (start g1 ps) (in_turn [1; 0]%nat)) = Some (3%nat, [(0%nat, (3%nat, [69; 114; 114; 111; 114; 58; 32; 65; 10]))], [[]; [1%nat]]).
Proof. exists [0; 0; 1; 1; 1; 1; 1; 0]%nat. vm_compute. repeat split. Qed.
Print Assumptions C74_lost_message_refuted.
(** An installation can be undone: closing the default logger (1) while another thread replaces it by 2 can leave no default logger at all, although the one closed was
    handed to the other thread, and the one installed was never taken.  Run one after the other, in either order, the default is 2. *)
Theorem C74_lost_logger_refuted : exists sched, let ps := [[Close 1]; [Logger 2]] in
  over (run e1 (start g1 ps) sched) = true /\ seen (run e1 (start g1 ps) sched) = Some (0%nat, [], [[]; [1%nat]]) /\
  seen (run e1 (start g1 ps) (in_turn [0; 1]%nat)) = Some (2%nat, [], [[]; [0%nat]]) /\ seen (run e1 (start g1 ps) (in_turn [1; 0]%nat)) = Some (2%nat, [], [[]; [1%nat]]).
Proof. exists [0; 1; 1; 1; 1; 1; 0; 0; 0; 0; 0]%nat. vm_compute. repeat split. Qed.
Print Assumptions C74_lost_logger_refuted.
(** A message that has found the default logger uses it after another thread has closed it. *)
Theorem C74_closed_refuted : exists sched, run e1 (start g1 [[hello 65]; [Close 1]]) sched = UB /\
  over (run e1 (start g1 [[hello 65]; [Close 1]]) (in_turn [0; 1]%nat)) = true /\ over (run e1 (start g1 [[hello 65]; [Close 1]]) (in_turn [1; 0]%nat)) = true.
Proof. exists [0; 0; 0; 1; 1; 1; 1; 1; 1; 0]%nat. vm_compute. repeat split. Qed.
Print Assumptions C74_closed_refuted.
(** zt_log_logger(NULL) asked for when there is no default logger makes one and returns it; but it can also return the logger another thread installs meanwhile,
    which stays the default: both the asker and whoever replaces it next get it. *)
Theorem C74_returned_twice_refuted : exists sched, let ps := [[Logger 0]; [Logger 1; Logger 2]] in
  over (run e1 (start g2 ps) sched) = true /\ seen (run e1 (start g2 ps) sched) = Some (2%nat, [], [[1%nat]; [0%nat; 1%nat]]).
Proof. exists ([0] ++ repeat 1 5 ++ [0; 0] ++ repeat 1 5)%nat. vm_compute. repeat split. Qed.
Print Assumptions C74_returned_twice_refuted.

(** non-vacuity: three threads, no default logger; two race to make it, with positions; the third installs 1 and then 2 *)
Definition pos (f : Z) : option dbg := Some (mkdbg (Some [f]) 5 (Some [109])).
Definition prog3 : list (list op) := [[Print 0 (pos 97) 3 [65] []; hello 66]; [Print 2 (pos 98) 3 [67] []; Print 0 (pos 99) 3 [68] []]; [Logger 1; Logger 2]].
Example C74_example_hyp : env_ok e1 /\ env_plain e1 /\ fresh_start g2 /\ forall p o, In p prog3 -> In o p -> calm (lgs g2) o.
Proof.
  split; [split; cbn; [exact Logic.I|lia]|]. split; [repeat split; intros []|]. split; [split; [apply wf_alloc, wf_alloc; repeat split; cbn; auto|repeat split; now left]|].
  intros p o [<-|[<-|[<-|[]]]] J; cbn [In] in J; repeat (destruct J as [<-|J]); try contradiction; cbn; repeat split; try (now left); try (right; discriminate); try lia; try discriminate; try (eexists; reflexivity); try (unfold dbg_ok; cbn; lia); intros [X|[]]; discriminate.
Qed.
Definition sched3 : list nat := ([0; 1; 0; 1; 0; 1; 1; 1; 0; 1; 0; 0; 0; 0; 1; 1] ++ repeat 0 3 ++ repeat 2 3 ++ repeat 0 9 ++ repeat 2 20 ++ repeat 1 20 ++ repeat 2 20)%nat.
Example C74_example : over (run e1 (start g2 prog3) sched3) = true /\
  match run e1 (start g2 prog3) sched3 with
  | Ok w => exits (gl w) = [3%nat] /\ dflt (gl w) = 2%nat /\ map got (ths w) = [[]; []; [3%nat; 1%nat]] /\
      by_thread 1 (out (gl w)) = [(2%nat, [67; 58; 32; 105; 110; 32; 109; 32; 97; 116; 32; 40; 98; 58; 53; 41; 10]); (3%nat, [69; 114; 114; 111; 114; 58; 32; 68; 58; 32; 105; 110; 32; 109; 32; 97; 116; 32; 40; 99; 58; 53; 41; 10])] /\
      length (by_thread 0 (out (gl w))) = 2%nat
  | _ => False
  end.
Proof. vm_compute. repeat split. Qed.
