(** C48: becoming a daemon.  C49: the pid file. *)
From Verif Require Import Prelude CstrModel CstrSpec CstrProofs LogProofs DaemonModel.
Local Open Scope Z_scope.

(** ** the loop that closes the descriptors *)
Lemma close_loop_ok : forall fuel i limit t, 0 <= i -> limit <= 2147483648 -> (Z.to_nat (limit - i) <= fuel)%nat ->
  exists t', close_loop fuel i limit t = Ok t' /\ forall d, t' d = if (i <=? d) && (d <? limit) then None else t d.
Proof.
  induction fuel as [|fuel IH]; intros i limit t Hi Hl Hf; cbn [close_loop]; destruct (i <? limit) eqn:E.
  - lia.
  - exists t. split; [reflexivity|]. intros d. replace ((i <=? d) && (d <? limit)) with false by lia. reflexivity.
  - unfold INT_MAX. replace (2147483647 <? i) with false by lia. cbv zeta. rewrite Z.mod_small by lia.
    destruct (IH (i + 1) limit (set_fd t i None)) as (t' & E' & H'); [lia|lia|lia|]. exists t'. split; [exact E'|]. intros d. rewrite H'. unfold set_fd.
    destruct (d =? i) eqn:D.
    + replace ((i <=? d) && (d <? limit)) with true by lia. now destruct ((i + 1 <=? d) && (d <? limit)).
    + replace ((i + 1 <=? d) && (d <? limit)) with ((i <=? d) && (d <? limit)) by lia. reflexivity.
  - exists t. split; [reflexivity|]. intros d. replace ((i <=? d) && (d <? limit)) with false by lia. reflexivity.
Qed.
Lemma close_loop_hangs : forall fuel i limit t, 0 <= i <= 2147483648 -> 2147483648 < limit -> close_loop fuel i limit t = Loop.
Proof.
  induction fuel as [|fuel IH]; intros i limit t Hi Hl; cbn [close_loop]; replace (i <? limit) with true by lia; [reflexivity|].
  cbv zeta. apply IH; [|exact Hl]. unfold INT_MAX. destruct (2147483647 <? i) eqn:E; rewrite Z.mod_small by lia; lia.
Qed.

(** ** three new descriptors *)
Lemma lowest_here n d t : t d = None -> lowest (S n) d t = Some d.
Proof. intros H. cbn [lowest]. now rewrite H. Qed.
Lemma lowest_next n d t f : t d = Some f -> lowest (S n) d t = lowest n (d + 1) t.
Proof. intros H. cbn [lowest]. now rewrite H. Qed.

(** ** C48 *)
(** When every system call succeeds and the limit L on descriptors is between 3 and 2^31, the caller and the first child exit with status 0 and one process returns 0
    from the call: it is in a session led by the first child, which is not itself; its standard input, output and error are /dev/null; no other descriptor below L is open;
    it is in the directory asked for, or else where it was, and has the mask asked for. *)
Theorem C48_daemon : forall s root m p L c1 c2, fork1 s = Some c1 -> setsid_ok s = true -> rlimit s = Some L -> fork2 s = Some c2 -> null_ok s = true ->
  (forall r, root = Some r -> chdir_ok s r = true) -> c1 <> c2 -> 3 <= L <= 2147483648 ->
  exists d, (forall fuel, (Z.to_nat L <= fuel)%nat -> exists d', daemonize fuel s root m p = Ok [Exits 0; Exits 0; Returns 0 d'] /\
               (forall n, fds d' n = fds d n) /\ (cwd d', mask d', pid d', session d') = (cwd d, mask d, pid d, session d)) /\
    (forall n, fds d n = if (0 <=? n) && (n <? 3) then Some Null else if (0 <=? n) && (n <? L) then None else fds p n) /\
    cwd d = match root with Some r => r | None => cwd p end /\ mask d = m /\ pid d = c2 /\ session d = c1 /\ session d <> pid d.
Proof.
  intros s root m p L c1 c2 F1 SS RL F2 NO CD NE HL.
  exists (mkproc (fun n => if (0 <=? n) && (n <? 3) then Some Null else if (0 <=? n) && (n <? L) then None else fds p n)
            (match root with Some r => r | None => cwd p end) m c2 c1). cbn [fds cwd mask pid session].
  split; [|auto 10]. intros fuel Hf. unfold daemonize, first_child. rewrite F1, SS, RL. cbn [fds cwd mask pid session].
  destruct (close_loop_ok fuel 0 L (fds p)) as (t & E & Ht); [lia|lia|lia|]. rewrite E. cbn [obind]. rewrite F2. cbn [obind].
  assert (G : forall cw, exists t3, (let '(fd, t) := open_null (null_ok s) L t in let '(_, t) := dup fd L t in let '(_, t) := dup fd L t in Returns 0 (mkproc t cw m c2 c1)) = Returns 0 (mkproc t3 cw m c2 c1) /\
            forall n, t3 n = if (0 <=? n) && (n <? 3) then Some Null else if (0 <=? n) && (n <? L) then None else fds p n).
  { intros cw. rewrite NO. unfold open_null, dup. destruct (Z.to_nat L) as [|[|[|k]]] eqn:EL; try lia. clear EL.
    assert (T0 : t 0 = None) by (rewrite Ht; replace ((0 <=? 0) && (0 <? L)) with true by lia; reflexivity).
    assert (T1 : t 1 = None) by (rewrite Ht; replace ((0 <=? 1) && (1 <? L)) with true by lia; reflexivity).
    assert (T2 : t 2 = None) by (rewrite Ht; replace ((0 <=? 2) && (2 <? L)) with true by lia; reflexivity).
    rewrite (lowest_here _ _ _ T0). change (0 =? -1) with false. cbv iota. set (t1 := set_fd t 0 (Some Null)).
    assert (A0 : t1 0 = Some Null) by reflexivity. assert (A1 : t1 1 = None) by exact T1. assert (A2 : t1 2 = None) by exact T2. rewrite A0.
    rewrite (lowest_next _ 0 t1 _ A0). change (0 + 1) with 1. rewrite (lowest_here _ _ _ A1). set (t2 := set_fd t1 1 (Some Null)).
    assert (B0 : t2 0 = Some Null) by reflexivity. assert (B1 : t2 1 = Some Null) by reflexivity. assert (B2 : t2 2 = None) by exact A2. rewrite B0.
    rewrite (lowest_next _ 0 t2 _ B0). change (0 + 1) with 1. rewrite (lowest_next _ 1 t2 _ B1). change (1 + 1) with 2. rewrite (lowest_here _ _ _ B2).
    eexists. split; [reflexivity|]. intros n. subst t2 t1. unfold set_fd. destruct (n =? 2) eqn:N2; [replace ((0 <=? n) && (n <? 3)) with true by lia; reflexivity|].
    destruct (n =? 1) eqn:N1; [replace ((0 <=? n) && (n <? 3)) with true by lia; reflexivity|].
    destruct (n =? 0) eqn:N0; [replace ((0 <=? n) && (n <? 3)) with true by lia; reflexivity|].
    replace ((0 <=? n) && (n <? 3)) with false by lia. apply Ht. }
  unfold second_child. destruct root as [r|].
  - rewrite (CD r eq_refl). cbn [fds cwd mask pid session]. destruct (G r) as (t3 & -> & H3). eexists. split; [reflexivity|]. cbn [fds cwd mask pid session]. auto.
  - cbn [fds cwd mask pid session]. destruct (G (cwd p)) as (t3 & -> & H3). eexists. split; [reflexivity|]. cbn [fds cwd mask pid session]. auto.
Qed.
Print Assumptions C48_daemon.

(** What becomes of a failing call of the system: a failing first fork ends the caller with status 1, each later failure ends the process it happens in with status 1,
    and no process returns from the call. *)
Theorem C48_failures : forall fuel s root m p L, (Z.to_nat L <= fuel)%nat -> L <= 2147483648 ->
  (fork1 s = None -> daemonize fuel s root m p = Ok [Exits 1]) /\
  (forall c1, fork1 s = Some c1 ->
    (setsid_ok s = false -> daemonize fuel s root m p = Ok [Exits 0; Exits 1]) /\
    (setsid_ok s = true ->
      (rlimit s = None -> daemonize fuel s root m p = Ok [Exits 0; Exits 1]) /\
      (rlimit s = Some L -> fork2 s = None -> daemonize fuel s root m p = Ok [Exits 0; Exits 1]) /\
      (forall c2 r, rlimit s = Some L -> fork2 s = Some c2 -> root = Some r -> chdir_ok s r = false -> daemonize fuel s root m p = Ok [Exits 0; Exits 0; Exits 1]))).
Proof.
  intros fuel s root m p L Hf HL. unfold daemonize, first_child. split; [intros ->; reflexivity|]. intros c1 ->. split; [intros ->; reflexivity|]. intros ->.
  split; [intros ->; reflexivity|]. cbn [fds cwd mask pid session]. destruct (close_loop_ok fuel 0 L (fds p)) as (t & E & _); [lia|lia|lia|].
  split; [intros -> ->; rewrite E; reflexivity|]. intros c2 r -> -> -> H. rewrite E. cbn [obind]. unfold second_child. rewrite H. reflexivity.
Qed.
Print Assumptions C48_failures.

(** The caller's exit status is 0 whenever it could fork at all: nobody learns that there is no daemon. *)
Theorem C48_status_refuted : forall fuel s root m p l, fork1 s <> None -> daemonize fuel s root m p = Ok l -> exists rest, l = Exits 0 :: rest.
Proof.
  intros fuel s root m p l H E. unfold daemonize in E. destruct (fork1 s) as [c|]; [|congruence]. apply obind_ok in E. destruct E as (r & _ & E).
  exists r. congruence.
Qed.
Print Assumptions C48_status_refuted.
(** With a limit above 2^31, for instance no limit, the first child closes descriptor 2147483647 for ever and the caller never comes back. *)
Theorem C48_unlimited_refuted : forall fuel s root m p L, fork1 s <> None -> setsid_ok s = true -> rlimit s = Some L -> 2147483648 < L -> daemonize fuel s root m p = Loop.
Proof.
  intros fuel s root m p L F S R H. unfold daemonize, first_child. destruct (fork1 s) as [c|]; [|congruence]. rewrite S, R. rewrite close_loop_hangs by lia. reflexivity.
Qed.
Print Assumptions C48_unlimited_refuted.
(** If /dev/null cannot be opened the call reports success and the daemon has no standard descriptors: the next file it opens becomes its standard input. *)
Theorem C48_null_refuted : forall s m p L c1 c2, fork1 s = Some c1 -> setsid_ok s = true -> rlimit s = Some L -> fork2 s = Some c2 -> null_ok s = false -> 3 <= L <= 2147483648 ->
  exists fuel d, daemonize fuel s None m p = Ok [Exits 0; Exits 0; Returns 0 d] /\ fds d 0 = None /\ fds d 1 = None /\ fds d 2 = None.
Proof.
  intros s m p L c1 c2 F1 SS RL F2 NO HL. exists (Z.to_nat L). unfold daemonize, first_child. rewrite F1, SS, RL. cbn [fds cwd mask pid session].
  destruct (close_loop_ok (Z.to_nat L) 0 L (fds p)) as (t & E & Ht); [lia|lia|lia|]. rewrite E. cbn [obind]. rewrite F2. cbn [obind].
  unfold second_child, open_null. rewrite NO. cbn [fds cwd mask pid session]. unfold dup. change (-1 =? -1) with true. cbv iota. eexists. split; [reflexivity|].
  cbn [fds]. rewrite !Ht. replace ((0 <=? 0) && (0 <? L)) with true by lia. replace ((0 <=? 1) && (1 <? L)) with true by lia. replace ((0 <=? 2) && (2 <? L)) with true by lia. auto.
Qed.
Print Assumptions C48_null_refuted.

Definition sys1 : sys := mksys (Some 11%nat) true (Some 16) (Some 12%nat) (fun r => match r with [47] => true | _ => false end) true.
Definition proc1 : proc := mkproc (fun d => if d <? 5 then Some (Other (Z.to_nat d)) else None) [97] 18 10 7.
Example C48_example : match daemonize 16 sys1 (Some [47]) 0 proc1 with
  | Ok [Exits 0; Exits 0; Returns 0 d] => (map (fds d) [0; 1; 2; 3; 4; 5], cwd d, mask d, pid d, session d) = ([Some Null; Some Null; Some Null; None; None; None], [47], 0, 12%nat, 11%nat)
  | _ => False
  end.
Proof. vm_compute. reflexivity. Qed.
Example C48_example_hyps : fork1 sys1 = Some 11%nat /\ setsid_ok sys1 = true /\ rlimit sys1 = Some 16 /\ fork2 sys1 = Some 12%nat /\ null_ok sys1 = true /\
  (forall r, Some [47] = Some r -> chdir_ok sys1 r = true) /\ chdir_ok sys1 [98] = false.
Proof. repeat split. intros r E. assert (r = [47]) by congruence. now subst. Qed.

(** ** C49 *)
(** the answer of the first call that was not interrupted by a signal *)
Definition answers (r : nat -> io) (k : nat) (x : io) : Prop := (forall j, (j < k)%nat -> r j = Intr) /\ r k = x /\ x <> Intr.
Lemma retry_ok : forall fuel r k0 k x, (forall j, (k0 <= j < k)%nat -> r j = Intr) -> r k = x -> x <> Intr -> (k0 <= k)%nat -> (k - k0 <= fuel)%nat -> retry fuel r k0 = Ok (x, S k).
Proof.
  induction fuel as [|fuel IH]; intros r k0 k x Hi Hk Hx Hle Hf.
  - assert (k0 = k) by lia. subst k0. cbn [retry]. rewrite Hk. destruct x; [reflexivity|congruence|reflexivity].
  - cbn [retry]. destruct (Nat.eq_dec k0 k) as [->|N].
    + rewrite Hk. destruct x; [reflexivity|congruence|reflexivity].
    + rewrite (Hi k0) by lia. apply IH; [intros j Hj; apply Hi; lia|exact Hk|exact Hx|lia|lia].
Qed.
Lemma retry_answers fuel r k x : answers r k x -> (k <= fuel)%nat -> retry fuel r 0 = Ok (x, S k).
Proof. intros (H1 & H2 & H3) Hf. apply retry_ok; [intros j Hj; apply H1; lia|exact H2|exact H3|lia|lia]. Qed.
Lemma line_len me : 0 <= me < 2 ^ 31 -> 0 < zlen (decimal me ++ [10]) < 64.
Proof.
  intros H. rewrite zlen_app. change (zlen [10]) with 1. pose proof (decimal_len me ltac:(lia)). pose proof (zlen_nonneg (decimal me)). lia.
Qed.

(** zt_writepid returns 0 exactly when the file could be made, the whole line was written and the file could be closed; and then the file holds the process number in
    decimal and a newline, nothing else.  Otherwise it returns -1. *)
Theorem C49_writepid : forall fuel name ok me writes closes kw w kc c, 0 <= me < 2 ^ 31 -> answers writes kw w -> answers closes kc c -> (kw <= fuel)%nat -> (kc <= fuel)%nat ->
  exists v content n, writepid fuel name ok me writes closes = Ok (v, content, n) /\ (v = 0 \/ v = -1) /\
    (v = 0 <-> name <> None /\ ok = true /\ w = Done (Z.of_nat (length (decimal me ++ [10]))) /\ c = Done 0) /\
    (v = 0 -> content = Some (decimal me ++ [10])).
Proof.
  intros fuel name ok me writes closes kw w kc c Hme Hw Hc Fw Fc. unfold writepid. destruct name as [name|].
  2: { do 3 eexists. split; [reflexivity|]. split; [now right|]. split; [split; [discriminate|intros (H & _); congruence]|discriminate]. }
  destruct ok.
  2: { do 3 eexists. split; [reflexivity|]. split; [now right|]. split; [split; [discriminate|intros (_ & H & _); discriminate H]|discriminate]. }
  cbv zeta. pose proof (line_len me Hme) as LL. replace ((0 <? zlen (decimal me ++ [10])) && (zlen (decimal me ++ [10]) <? 64)) with true by lia.
  rewrite (retry_answers fuel writes kw w Hw Fw). cbn [obind]. rewrite (retry_answers fuel closes kc c Hc Fc).
  assert (Hw' : w <> Intr) by apply Hw. assert (Hc' : c <> Intr) by apply Hc. destruct Hw as (_ & _ & _). set (text := decimal me ++ [10]) in *.
  change (zlen text) with (Z.of_nat (length text)) in *. destruct w as [n| |]; [|congruence|].
  - cbn [obind]. destruct c as [m| |]; [|congruence|].
    + destruct (m =? 0) eqn:Em.
      * destruct (n =? Z.of_nat (length text)) eqn:En.
        -- do 3 eexists. split; [reflexivity|]. split; [now left|]. split.
           ++ split; [|reflexivity]. intros _. repeat split; [discriminate|f_equal; lia|f_equal; lia].
           ++ intros _. f_equal. apply firstn_all2. lia.
        -- do 3 eexists. split; [reflexivity|]. split; [now right|]. split; [|discriminate]. split; [discriminate|]. intros (_ & _ & A & _). assert (n = Z.of_nat (length text)) by congruence. lia.
      * do 3 eexists. split; [reflexivity|]. split; [now right|]. split; [|discriminate]. split; [discriminate|]. intros (_ & _ & _ & A). assert (m = 0) by congruence. lia.
    + do 3 eexists. split; [reflexivity|]. split; [now right|]. split; [|discriminate]. split; [discriminate|]. intros (_ & _ & _ & A). discriminate A.
  - cbn [obind]. do 3 eexists. split; [reflexivity|]. split; [right; now destruct (_ =? 0)|]. split; [|now destruct (_ =? 0)]. split; [now destruct (_ =? 0)|]. intros (_ & _ & A & _). discriminate A.
Qed.
Print Assumptions C49_writepid.
(** Without a name or if the file cannot be made nothing is touched. *)
Theorem C49_untouched : forall fuel name ok me writes closes, name = None \/ ok = false -> writepid fuel name ok me writes closes = Ok (-1, None, O).
Proof. intros fuel name ok me writes closes [->| ->]; unfold writepid; [reflexivity|now destruct name]. Qed.
Print Assumptions C49_untouched.
(** A call interrupted for ever does not return. *)
Theorem C49_interrupted : forall fuel name me writes closes, name <> None -> 0 <= me < 2 ^ 31 -> (forall k, writes k = Intr) -> writepid fuel name true me writes closes = Loop.
Proof.
  intros fuel name me writes closes Hn Hme H. unfold writepid. destruct name as [name|]; [|congruence]. cbv zeta. pose proof (line_len me Hme).
  replace ((0 <? zlen (decimal me ++ [10])) && (zlen (decimal me ++ [10]) <? 64)) with true by lia.
  assert (R : forall f k, retry f writes k = Loop) by (induction f as [|f IH]; intros k; cbn [retry]; rewrite H; [reflexivity|apply IH]). rewrite R. reflexivity.
Qed.
Print Assumptions C49_interrupted.
(** The descriptor is closed again each time close() is interrupted.  Where an interrupted close has released the descriptor (as on Linux), the second call fails, and the
    function reports failure although the file is complete. *)
Theorem C49_close_refuted : forall fuel name me writes closes kw, name <> None -> 0 <= me < 2 ^ 31 -> answers writes kw (Done (Z.of_nat (length (decimal me ++ [10])))) ->
  closes 0%nat = Intr -> closes 1%nat = Fail -> (kw <= fuel)%nat -> (1 <= fuel)%nat ->
  writepid fuel name true me writes closes = Ok (-1, Some (decimal me ++ [10]), 2%nat).
Proof.
  intros fuel name me writes closes kw Hn Hme Hw C0 C1 Fw Fc. unfold writepid. destruct name as [name|]; [|congruence]. cbv zeta. pose proof (line_len me Hme).
  replace ((0 <? zlen (decimal me ++ [10])) && (zlen (decimal me ++ [10]) <? 64)) with true by lia.
  rewrite (retry_answers fuel writes kw _ Hw Fw). cbn [obind]. rewrite (retry_answers fuel closes 1 Fail).
  - cbn [obind]. change (-1 =? 0) with false. cbv iota. do 3 f_equal. rewrite Nat2Z.id. rewrite firstn_all. reflexivity.
  - split; [intros j Hj; assert (j = O) by lia; now subst|]. split; [exact C1|discriminate].
  - exact Fc.
Qed.
Print Assumptions C49_close_refuted.
Example C49_example : writepid 3 (Some [112]) true 4711 (fun k => match k with O => Intr | _ => Done 5 end) (fun _ => Done 0) = Ok (0, Some [52; 55; 49; 49; 10], 1%nat) /\
  answers (fun k => match k with O => Intr | _ => Done 5 end) 1 (Done (Z.of_nat (length (decimal 4711 ++ [10])))) /\ answers (fun _ => Done 0) 0 (Done 0).
Proof.
  split; [vm_compute; reflexivity|]. split; (split; [intros j Hj|split; [vm_compute; reflexivity|discriminate]]); [assert (j = O) by lia; now subst|lia].
Qed.
