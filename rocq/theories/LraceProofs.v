(** Invariants of zt_log used by several threads. *)
From Verif Require Import Prelude Heap CstrModel LogModel LogSpec LogProofs LraceModel LraceSpec.
From Coq Require Import Permutation.
Local Open Scope Z_scope.

Definition locked (c : pc) : bool := match c with Get2 _ | Get3 _ | Get4 _ | Get5 _ | Set2 _ _ | Set3 _ _ _ | Set4 _ _ _ => true | _ => false end.
(** ** the mutex, for all programs *)
Record minv (w : world) : Prop := mkminv {
  m_lock : forall j t, nth_error (ths w) j = Some t -> locked (at_ t) = true -> mutex (gl w) = Some j;
  m_held : forall j, mutex (gl w) = Some j -> exists t, nth_error (ths w) j = Some t /\ locked (at_ t) = true }.
Lemma nth_upd {A} (l : list A) i v t j : nth_error l i = Some t -> nth_error (upd l i v) j = if (j =? i)%nat then Some v else nth_error l j.
Proof. intros H. rewrite upd_nth_error. assert (L : (i < length l)%nat) by (apply nth_error_Some; congruence). apply Nat.ltb_lt in L. rewrite L. reflexivity. Qed.
(** what a step does to the mutex *)
Lemma step_mutex e i g t g' t' : tstep e i g t = Ok (Some (g', t')) ->
  (mutex g' = mutex g /\ locked (at_ t') = locked (at_ t)) \/
  (mutex g = None /\ mutex g' = Some i /\ locked (at_ t') = true /\ locked (at_ t) = false) \/
  (mutex g' = None /\ locked (at_ t) = true /\ locked (at_ t') = false).
Proof.
  unfold tstep. destruct (at_ t) as [|w|w|w|w|w|w|w|p c|p c|p last c|p last c|p level fmt args|p level fmt args|p] eqn:E.
  - destruct (todo t) as [|[log d level fmt args|log|log] r]; try discriminate; intros H.
    + assert (g' = g /\ t' = go (match d with Some d => set_info t d | None => t end) (if (log =? 0)%nat then Get0 (ForPrint level fmt args) else Pr1 log level fmt args)) as [-> ->] by (split; congruence). left. split; [reflexivity|]. now destruct (log =? 0)%nat.
    + assert (g' = g /\ t' = go t (if (log =? 0)%nat && (dflt g =? 0)%nat then Get0 ForLogger else Set1 log None)) as [-> ->] by (split; congruence). left. split; [reflexivity|]. now destruct (_ && _).
    + assert (g' = g /\ t' = (if (log =? 0)%nat then finish t [] else go t (if (log =? dflt g)%nat then Set1 0 (Some log) else Free log))) as [-> ->] by (split; congruence). left. split; [reflexivity|]. destruct (log =? 0)%nat; [reflexivity|]. now destruct (_ =? _)%nat.
  - intros H. assert (g' = g /\ t' = go t (if (dflt g =? 0)%nat then Get1 w else Get6 w)) as [-> ->] by (split; congruence). left. split; [reflexivity|]. now destruct (_ =? _)%nat.
  - destruct (mutex g) eqn:M; [discriminate|]. intros H. injection H as <- <-. right. left. repeat split.
  - intros H. assert (g' = g /\ t' = go t (if (dflt g =? 0)%nat then Get3 w else Get5 w)) as [-> ->] by (split; congruence). left. split; [reflexivity|]. now destruct (_ =? _)%nat.
  - cbn [alloc]. intros H. injection H as <- <-. left. split; reflexivity.
  - intros H. injection H as <- <-. left. split; reflexivity.
  - intros H. injection H as <- <-. right. right. repeat split.
  - destruct w as [level fmt args|]; intros H.
    + assert (g' = g /\ t' = (if (dflt g =? 0)%nat then finish (set_info t no_dbg) [] else go t (Pr1 (dflt g) level fmt args))) as [-> ->] by (split; congruence). left. split; [reflexivity|]. now destruct (_ =? _)%nat.
    + injection H as <- <-. left. split; reflexivity.
  - destruct (mutex g) eqn:M; [discriminate|]. intros H. injection H as <- <-. right. left. repeat split.
  - intros H. injection H as <- <-. left. split; reflexivity.
  - intros H. injection H as <- <-. left. split; reflexivity.
  - intros H. assert (g' = set_mutex g None /\ t' = match c with None => finish t [last] | Some q => go t (Free q) end) as [-> ->] by (split; congruence). right. right. repeat split. now destruct c.
  - destruct (load (lgs g) p) as [l| | |]; cbn [obind]; try discriminate. intros H. assert (g' = g /\ t' = (if l_level l <? level then finish (set_info t no_dbg) [] else go t (Pr2 p level fmt args))) as [-> ->] by (split; congruence). left. split; [reflexivity|]. now destruct (_ <? _).
  - destruct (load (lgs g) p) as [l| | |]; cbn [obind]; try discriminate. destruct (_ <? _); [intros H; injection H as <- <-; left; split; reflexivity|].
    destruct (print _ _ _ _ _ _ _ _) as [s| | |]; cbn [obind]; try discriminate. intros H. injection H as <- <-. left. split; reflexivity.
  - destruct (release (lgs g) p) as [h| | |]; cbn [obind]; try discriminate. intros H. injection H as <- <-. left. split; reflexivity.
Qed.
Lemma minv_step e w i t g' t' : minv w -> nth_error (ths w) i = Some t -> tstep e i (gl w) t = Ok (Some (g', t')) -> minv (mkworld g' (upd (ths w) i t')).
Proof.
  intros [L H] N S. pose proof (step_mutex _ _ _ _ _ _ S) as [[M1 M2]|[(M1 & M2 & M3 & M4)|(M1 & M2 & M3)]]; constructor; cbn [gl ths].
  - intros j x. rewrite (nth_upd _ _ _ _ _ N). rewrite M1. destruct (Nat.eqb_spec j i) as [->|]; [intros E; injection E as <-; rewrite M2; now apply L|apply L].
  - intros j. rewrite M1. intros E. destruct (H j E) as (x & X1 & X2). rewrite (nth_upd _ _ _ _ _ N). destruct (Nat.eqb_spec j i) as [->|]; [exists t'; split; [reflexivity|]; congruence|now exists x].
  - intros j x. rewrite (nth_upd _ _ _ _ _ N). destruct (Nat.eqb_spec j i) as [->|]; [intros _ _; exact M2|]. intros X1 X2. specialize (L j x X1 X2). congruence.
  - intros j. rewrite M2. intros E. assert (j = i) by congruence. subst j. exists t'. rewrite (nth_upd _ _ _ _ _ N), Nat.eqb_refl. now split.
  - intros j x. rewrite (nth_upd _ _ _ _ _ N). destruct (Nat.eqb_spec j i) as [->|NE]; [intros E; assert (x = t') by congruence; subst; congruence|]. intros X1 X2. pose proof (L j x X1 X2). pose proof (L i t N M2). congruence.
  - intros j. rewrite M1. discriminate.
Qed.
Lemma minv_run e : forall sched w w', minv w -> run e w sched = Ok w' -> minv w'.
Proof.
  induction sched as [|i r IH]; intros w w' M; cbn [run]; [intros E; assert (w = w') by congruence; now subst|]. unfold step. destruct (nth_error (ths w) i) as [t|] eqn:N; cbn [obind]; [|now apply IH].
  destruct (tstep e i (gl w) t) as [[[g t']|]| | |] eqn:S; cbn [obind]; try discriminate; [|now apply IH]. apply IH. exact (minv_step _ _ _ _ _ _ M N S).
Qed.
Lemma minv_start g ps : mutex g = None -> minv (start g ps).
Proof.
  intros M. constructor; cbn [start gl ths]; [|intros j; congruence]. intros j t N. apply nth_error_In in N. apply in_map_iff in N. destruct N as (p & <- & _). discriminate.
Qed.

(** ** every call takes at most nine steps *)
Definition stage (c : pc) : nat :=
  match c with Idle => 0 | Get0 _ => 1 | Get1 _ => 2 | Get2 _ => 3 | Get3 _ => 4 | Get4 _ => 5 | Get5 _ => 6 | Get6 _ => 7 | Pr1 _ _ _ _ => 8 | Pr2 _ _ _ _ => 9 | Set1 _ _ => 1 | Set2 _ _ => 2 | Set3 _ _ _ => 3 | Set4 _ _ _ => 4 | Free _ => 5 end%nat.
Definition weight (t : thread) : nat := (10 * length (todo t) - stage (at_ t))%nat.
Definition busy (t : thread) : Prop := at_ t <> Idle -> todo t <> [].
Lemma stage_le c : (stage c <= 9)%nat.
Proof. destruct c; cbn [stage]; lia. Qed.
Lemma go_weight t c : todo t <> [] -> (stage (at_ t) < stage c)%nat -> (weight (go t c) < weight t)%nat.
Proof. intros N L. unfold weight. cbn [go todo at_]. pose proof (stage_le c). destruct (todo t); [congruence|]. cbn [length]. lia. Qed.
Lemma info_weight t d c : weight (go (set_info t d) c) = weight (go t c).
Proof. reflexivity. Qed.
Lemma finish_weight t l : todo t <> [] -> (weight (finish t l) < weight t)%nat.
Proof. intros N. unfold weight. cbn [finish todo at_ stage]. pose proof (stage_le (at_ t)). destruct (todo t) as [|o r]; [congruence|]. cbn [tl length]. lia. Qed.
Lemma finish_info_weight t d l : todo t <> [] -> (weight (finish (set_info t d) l) < weight t)%nat.
Proof. intros N. exact (finish_weight t l N). Qed.
Lemma go_busy t c : todo t <> [] -> busy (go t c).
Proof. intros N _. exact N. Qed.
Lemma finish_busy t l : busy (finish t l).
Proof. intros H. now destruct H. Qed.
Lemma step_weight e i g t g' t' : busy t -> tstep e i g t = Ok (Some (g', t')) -> (weight t' < weight t)%nat /\ busy t'.
Proof.
  intros B. assert (B' : at_ t <> Idle -> todo t <> []) by exact B. unfold tstep. destruct (at_ t) as [|w|w|w|w|w|w|w|p c|p c|p last c|p last c|p level fmt args|p level fmt args|p] eqn:E; [|specialize (B' ltac:(discriminate))..].
  - destruct (todo t) as [|[log d level fmt args|log|log] r] eqn:T; try discriminate; intros H; assert (N : todo t <> []) by congruence.
    + assert (t' = go (match d with Some d => set_info t d | None => t end) (if (log =? 0)%nat then Get0 (ForPrint level fmt args) else Pr1 log level fmt args)) as -> by congruence.
      destruct d as [d|]; rewrite ?info_weight; (split; [apply go_weight; [exact N|rewrite E; destruct (log =? 0)%nat; cbn [stage]; lia]|apply go_busy; exact N]).
    + assert (t' = go t (if (log =? 0)%nat && (dflt g =? 0)%nat then Get0 ForLogger else Set1 log None)) as -> by congruence. split; [apply go_weight; [exact N|rewrite E; destruct (_ && _); cbn [stage]; lia]|now apply go_busy].
    + assert (t' = (if (log =? 0)%nat then finish t [] else go t (if (log =? dflt g)%nat then Set1 0 (Some log) else Free log))) as -> by congruence.
      destruct (log =? 0)%nat; [split; [now apply finish_weight|apply finish_busy]|]. split; [apply go_weight; [exact N|rewrite E; destruct (_ =? _)%nat; cbn [stage]; lia]|now apply go_busy].
  - intros H. assert (t' = go t (if (dflt g =? 0)%nat then Get1 w else Get6 w)) as -> by congruence. split; [apply go_weight; [assumption|rewrite E; destruct (_ =? _)%nat; cbn [stage]; lia]|now apply go_busy].
  - destruct (mutex g); [discriminate|]. intros H. assert (t' = go t (Get2 w)) as -> by congruence. split; [apply go_weight; [assumption|rewrite E; cbn [stage]; lia]|now apply go_busy].
  - intros H. assert (t' = go t (if (dflt g =? 0)%nat then Get3 w else Get5 w)) as -> by congruence. split; [apply go_weight; [assumption|rewrite E; destruct (_ =? _)%nat; cbn [stage]; lia]|now apply go_busy].
  - cbn [alloc]. intros H. assert (t' = go t (Get4 w)) as -> by congruence. split; [apply go_weight; [assumption|rewrite E; cbn [stage]; lia]|now apply go_busy].
  - intros H. assert (t' = go t (Get5 w)) as -> by congruence. split; [apply go_weight; [assumption|rewrite E; cbn [stage]; lia]|now apply go_busy].
  - intros H. assert (t' = go t (Get6 w)) as -> by congruence. split; [apply go_weight; [assumption|rewrite E; cbn [stage]; lia]|now apply go_busy].
  - destruct w as [level fmt args|]; intros H.
    + assert (t' = (if (dflt g =? 0)%nat then finish (set_info t no_dbg) [] else go t (Pr1 (dflt g) level fmt args))) as -> by congruence.
      destruct (_ =? _)%nat; [split; [now apply finish_info_weight|apply finish_busy]|]. split; [apply go_weight; [assumption|rewrite E; cbn [stage]; lia]|now apply go_busy].
    + assert (t' = finish t [dflt g]) as -> by congruence. split; [now apply finish_weight|apply finish_busy].
  - destruct (mutex g); [discriminate|]. intros H. assert (t' = go t (Set2 p c)) as -> by congruence. split; [apply go_weight; [assumption|rewrite E; cbn [stage]; lia]|now apply go_busy].
  - intros H. assert (t' = go t (Set3 p (dflt g) c)) as -> by congruence. split; [apply go_weight; [assumption|rewrite E; cbn [stage]; lia]|now apply go_busy].
  - intros H. assert (t' = go t (Set4 p last c)) as -> by congruence. split; [apply go_weight; [assumption|rewrite E; cbn [stage]; lia]|now apply go_busy].
  - intros H. assert (t' = match c with None => finish t [last] | Some q => go t (Free q) end) as -> by congruence.
    destruct c; [split; [apply go_weight; [assumption|rewrite E; cbn [stage]; lia]|now apply go_busy]|split; [now apply finish_weight|apply finish_busy]].
  - destruct (load (lgs g) p) as [l| | |]; cbn [obind]; try discriminate. intros H. assert (t' = (if l_level l <? level then finish (set_info t no_dbg) [] else go t (Pr2 p level fmt args))) as -> by congruence.
    destruct (_ <? _); [split; [now apply finish_info_weight|apply finish_busy]|]. split; [apply go_weight; [assumption|rewrite E; cbn [stage]; lia]|now apply go_busy].
  - destruct (load (lgs g) p) as [l| | |]; cbn [obind]; try discriminate. destruct (_ <? _).
    + intros H. assert (t' = finish (set_info t no_dbg) []) as -> by congruence. split; [now apply finish_info_weight|apply finish_busy].
    + destruct (print _ _ _ _ _ _ _ _) as [s| | |]; cbn [obind]; try discriminate. intros H. assert (t' = finish (set_info t no_dbg) []) as -> by congruence. split; [now apply finish_info_weight|apply finish_busy].
  - destruct (release (lgs g) p) as [h| | |]; cbn [obind]; try discriminate. intros H. assert (t' = finish t []) as -> by congruence. split; [now apply finish_weight|apply finish_busy].
Qed.
Definition total (l : list thread) : nat := list_sum (map weight l).
Lemma total_upd : forall l i t t', nth_error l i = Some t -> (total (upd l i t') + weight t = total l + weight t')%nat.
Proof.
  unfold total. induction l as [|x l IH]; intros [|i] t t' N; cbn [nth_error] in N; try discriminate.
  - assert (x = t) by congruence. subst. cbn [upd map list_sum fold_right]. fold (list_sum (map weight l)). lia.
  - specialize (IH i t t' N). cbn [upd map list_sum fold_right]. fold (list_sum (map weight l)). fold (list_sum (map weight (upd l i t'))). lia.
Qed.
Definition all_busy (l : list thread) : Prop := forall i t, nth_error l i = Some t -> busy t.
Lemma busy_upd l i t t' : nth_error l i = Some t -> all_busy l -> busy t' -> all_busy (upd l i t').
Proof. intros N B B' j x. rewrite (nth_upd _ _ _ _ _ N). destruct (j =? i)%nat; [intros E; assert (x = t') by congruence; now subst|apply B]. Qed.
Lemma busy_start g ps : all_busy (ths (start g ps)).
Proof. intros j t N. apply nth_error_In in N. apply in_map_iff in N. destruct N as (p & <- & _). intros H. now destruct H. Qed.
Lemma moves_total e n w w' : moves e n w w' -> all_busy (ths w) -> (n + total (ths w') <= total (ths w))%nat.
Proof.
  induction 1 as [|n w i t g t' w' N S M IH]; intros B; [lia|]. destruct (step_weight _ _ _ _ _ _ (B _ _ N) S) as [L B']. specialize (IH (busy_upd _ _ _ _ N B B')). cbn [ths] in IH. pose proof (total_upd _ _ _ t' N). lia.
Qed.
Lemma busy_run e : forall sched w w', all_busy (ths w) -> run e w sched = Ok w' -> all_busy (ths w').
Proof.
  induction sched as [|i r IH]; intros w w' M; cbn [run]; [intros E; assert (w = w') by congruence; now subst|]. unfold step. destruct (nth_error (ths w) i) as [t|] eqn:N; cbn [obind]; [|now apply IH].
  destruct (tstep e i (gl w) t) as [[[g t']|]| | |] eqn:S; cbn [obind]; try discriminate; [|now apply IH]. apply IH. exact (busy_upd _ _ _ _ N M (proj2 (step_weight _ _ _ _ _ _ (M _ _ N) S))).
Qed.
