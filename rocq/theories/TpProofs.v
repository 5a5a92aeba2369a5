(** Invariants of the thread pool machine. *)
From Coq Require Import List ZArith Bool Arith Lia Permutation.
From Verif Require Import Prelude TpModel TpSpec.
Import ListNotations.

(** ** Sums over threads *)
Fixpoint tot (g : pc -> nat) (l : list pc) : nat :=
  match l with [] => 0 | p :: r => g p + tot g r end.

Lemma tot_app : forall g a b, tot g (a ++ b) = tot g a + tot g b.
Proof. induction a; intros; cbn [tot app]; [lia|rewrite IHa; lia]. Qed.

Lemma tot_upd : forall g l t p p', nth_error l t = Some p ->
  tot g (upd l t p') + g p = tot g l + g p'.
Proof.
  induction l; intros [|t] p p' H; cbn in H; try discriminate.
  - injection H as <-. cbn. lia.
  - cbn [upd tot]. specialize (IHl _ _ p' H). lia.
Qed.

Lemma tot_le : forall g h l, (forall p, g p <= h p) -> tot g l <= tot h l.
Proof. intros g h l H; induction l; cbn [tot]; [lia|]. specialize (H a). lia. Qed.

Lemma tot_ge : forall g l t p, nth_error l t = Some p -> g p <= tot g l.
Proof.
  induction l; intros [|t] p H; cbn in H; try discriminate.
  - injection H as <-. cbn. lia.
  - cbn [tot]. specialize (IHl _ _ H). lia.
Qed.

Lemma tot_zero : forall g l, tot g l = 0 <-> forall t p, nth_error l t = Some p -> g p = 0.
Proof.
  intros g l; split.
  - intros H t p Hp. pose proof (tot_ge g l t p Hp). lia.
  - induction l; intros H; [reflexivity|]. cbn [tot].
    rewrite (H 0 a eq_refl). rewrite IHl; [reflexivity|].
    intros t p Hp. exact (H (S t) p Hp).
Qed.

Lemma tot_pos : forall g l, tot g l <> 0 -> exists t p, nth_error l t = Some p /\ g p <> 0.
Proof.
  induction l; intros H; [exfalso; apply H; reflexivity|]. cbn [tot] in H.
  destruct (Nat.eq_dec (g a) 0) as [E|E].
  - destruct IHl as (t & p & Hp & Hg); [lia|]. exists (S t), p. auto.
  - exists 0, a. auto.
Qed.

Lemma tot_plus : forall g h l, tot (fun p => g p + h p) l = tot g l + tot h l.
Proof. induction l; cbn [tot]; lia. Qed.

Lemma tot_two : forall g l t u p q, t <> u -> nth_error l t = Some p -> nth_error l u = Some q ->
  g p + g q <= tot g l.
Proof.
  intros g l; induction l; intros [|t] [|u] p q Ne Hp Hq; cbn in Hp, Hq; try discriminate; try congruence.
  - injection Hp as <-. pose proof (tot_ge g l u q Hq). cbn [tot]. lia.
  - injection Hq as <-. pose proof (tot_ge g l t p Hp). cbn [tot]. lia.
  - cbn [tot]. assert (t <> u) by congruence. specialize (IHl t u p q H Hp Hq). lia.
Qed.

Definition b2n (b : bool) : nat := if b then 1 else 0.

Lemma tot_wake : forall g x l,
  tot g (wake_all x l) + tot (fun p => b2n (waits x p)) l * g (LWait x)
  = tot g l + tot (fun p => b2n (waits x p)) l * g (LWoken x).
Proof.
  intros g x l. induction l; [reflexivity|].
  cbn [wake_all map tot] in *. fold (wake_all x l).
  destruct (waits x a) eqn:W.
  - assert (a = LWait x) by (destruct a; cbn in W; try discriminate; destruct x, x0; cbn in W; congruence).
    subst a. cbn [b2n]. lia.
  - cbn [b2n]. lia.
Qed.

Lemma wake_all_nth : forall x l t, nth_error (wake_all x l) t =
  option_map (fun p => if waits x p then LWoken x else p) (nth_error l t).
Proof. intros. unfold wake_all. apply nth_error_map. Qed.

Lemma waits_spec : forall x p, waits x p = true -> p = LWait x.
Proof. intros x p H; destruct p; cbn in H; try discriminate. destruct x, x0; cbn in H; congruence. Qed.

Lemma side_eqb_refl : forall x, side_eqb x x = true.
Proof. destruct x; reflexivity. Qed.

Lemma wake_len : forall x l, length (wake_all x l) = length l.
Proof. intros; apply map_length. Qed.

(** Sum of a projection over threads, as a count *)
Definition entry_dec : forall a b : entry, {a = b} + {a <> b}.
Proof. decide equality; [apply Z.eq_dec|apply Nat.eq_dec]. Defined.
Definition job_dec : forall a b : entry * Z, {a = b} + {a <> b}.
Proof. decide equality; [apply Z.eq_dec|apply entry_dec]. Defined.

Lemma count_flat : forall {A} (dec : forall a b : A, {a = b} + {a <> b}) (f : pc -> list A) l e,
  count_occ dec (flat_map f l) e = tot (fun p => count_occ dec (f p) e) l.
Proof.
  intros A dec f l e. induction l; [reflexivity|].
  cbn [flat_map tot]. rewrite count_occ_app, IHl. reflexivity.
Qed.

(** ** One step, as equations *)

(** Field equations of the state transformers *)
Ltac fields := repeat (progress (unfold goto, emit, set_q, set_owner, unlock, set_half, set_thr, hf, queue in *;
  cbn [s_n s_thr s_i s_o s_kill s_shut s_next s_log h_q h_owner] in *)).

Ltac step_inv H :=
  unfold step in H;
  match type of H with match nth_error ?l ?t with _ => _ end = _ =>
    let E := fresh "Hp" in destruct (nth_error l t) as [p|] eqn:E; [|discriminate H] end;
  match goal with p : pc |- _ => destruct p end;
  match type of H with context [match ?ch with Go => _ | _ => _ end] => destruct ch | _ => idtac end;
  try discriminate H;
  repeat match type of H with
  | context [lock ?x ?t ?s] =>
      let E := fresh "Hown" in unfold lock in H; destruct (h_owner (hf x s)) eqn:E; [discriminate H|]
  | match ?k with ToClient => _ | ToLoop _ => _ end = _ => destruct k
  | context [match ?x with I_ => _ | O_ => _ end] => is_var x; destruct x
  | (if ?b then _ else _) = _ => let E := fresh "Hb" in destruct b eqn:E
  | match ?q with [] => _ | _ :: _ => _ end = _ => let E := fresh "Hq" in destruct q eqn:E
  | match nth_error ?l ?w with _ => _ end = _ =>
      let E := fresh "Hw" in destruct (nth_error l w) as [p'|] eqn:E; [|discriminate H]
  | match ?r with Some _ => _ | None => _ end = _ => is_var r; destruct r
  | match ?p' with LTop _ => _ | _ => _ end = _ => is_var p'; destruct p'
  | (let '(_, _) := alloc_entry ?d ?s in _) = _ => unfold alloc_entry in H
  | Some (if ?b then _ else _) = _ => destruct b
  | None = Some _ => discriminate H
  end;
  try discriminate H.

(** What a step does to sums over threads *)
Lemma pick_tot : forall g l t w p p' x, nth_error l t = Some p -> nth_error l w = Some (LWait x) ->
  t <> w ->
  tot g (upd (upd l w (LWoken x)) t p') + g p + g (LWait x) = tot g l + g p' + g (LWoken x).
Proof.
  intros g l t w p p' x Ht Hw Ne.
  assert (Ht' : nth_error (upd l w (LWoken x)) t = Some p).
  { rewrite upd_nth_error. destruct (Nat.eqb_spec t w); [congruence|]. exact Ht. }
  pose proof (tot_upd g _ _ _ p' Ht'). pose proof (tot_upd g _ _ _ (LWoken x) Hw). lia.
Qed.

Lemma bcast_tot : forall g l t p' x, nth_error l t = Some (KBc x) ->
  tot g (upd (wake_all x l) t p') + g (KBc x) + tot (fun p => b2n (waits x p)) l * g (LWait x)
  = tot g l + g p' + tot (fun p => b2n (waits x p)) l * g (LWoken x).
Proof.
  intros g l t p' x Ht.
  assert (Ht' : nth_error (wake_all x l) t = Some (KBc x)).
  { rewrite wake_all_nth, Ht. reflexivity. }
  pose proof (tot_upd g _ _ _ p' Ht'). pose proof (tot_wake g x l). lia.
Qed.

(** After [step_inv], the equation for sums, whatever the kind of step *)
Ltac step_case t H :=
  step_inv H;
  match goal with
  | E : nth_error (s_thr ?s) t = Some (PSig ?x ?k), W : nth_error (s_thr ?s) ?w = Some ?q,
    B : waits ?x ?q = true |- _ =>
      apply waits_spec in B; subst q;
      let Ne := fresh "Ne" in assert (Ne : t <> w) by (intros ->; congruence);
      pose proof (fun g p' => pick_tot g _ _ _ _ p' _ E W Ne) as T
  | E : nth_error (s_thr ?s) t = Some (KBc ?x) |- _ =>
      pose proof (fun g p' => bcast_tot g _ _ p' _ E) as T
  | E : nth_error (s_thr ?s) t = Some ?p |- _ =>
      pose proof (fun g p' => tot_upd g _ _ _ p' E) as T
  end;
  match type of H with Some ?a = Some ?b => assert (a = b) by congruence; subst b; clear H end.

Definition crit (x : side) (p : pc) : nat := b2n (in_critical x p).

Definition mutex_inv (s : st) : Prop := forall x,
  tot (crit x) (s_thr s) = match h_owner (hf x s) with None => 0 | Some _ => 1 end.

Lemma mutex_step : forall c t ch s s', step c t ch s = Some s' -> mutex_inv s -> mutex_inv s'.
Proof.
  intros c t ch s s' H Inv x. pose proof (Inv I_) as MI. pose proof (Inv O_) as MO.
  clear Inv.
  step_case t H.
  all: repeat match goal with y : side |- _ => destruct y end; try match goal with k : cont |- _ => destruct k end; fields.
  all: try (match goal with |- context [tot ?g ?l] =>
         match l with upd _ _ ?p' => specialize (T g p') end end; cbn [crit b2n in_critical side_eqb] in *;
         repeat match goal with E : h_owner _ = _ |- _ => rewrite E in * end;
         repeat match goal with _ : context [match h_owner ?h with Some _ => _ | None => _ end] |- _ => destruct (h_owner h) end; try lia).
Qed.

(** threads that looked at an empty queue and still hold its lock *)
Definition parked (x : side) (p : pc) : nat :=
  match p with LExit y | LToWait y => b2n (side_eqb x y) | _ => 0 end.

Definition park_inv (s : st) : Prop := forall x, tot (parked x) (s_thr s) <> 0 -> queue x s = [].

Definition enq (x : side) (p : pc) : nat :=
  match p with PEnq y _ _ => b2n (side_eqb x y) | _ => 0 end.

Lemma park_enq : forall x l, tot (parked x) l + tot (enq x) l <= tot (crit x) l.
Proof.
  intros. rewrite <- tot_plus. apply tot_le. intros p; destruct p; cbn; try lia; destruct x; try destruct x0; cbn; lia.
Qed.

Ltac sides := repeat match goal with y : side |- _ => destruct y end;
  try match goal with k : cont |- _ => destruct k end; fields.

(** specialise the sum equation [T] to [g] and compute *)
Ltac sum g := match goal with T : forall (_ : pc -> nat) (_ : pc), _ |- _ =>
  match goal with |- context [tot _ (upd _ _ ?p')] =>
    let E := fresh "E" in pose proof (T g p') as E; cbn in E
  | _ : context [tot _ (upd _ _ ?p')] |- _ =>
    let E := fresh "E" in pose proof (T g p') as E; cbn in E end end.

Lemma park_step : forall c t ch s s', step c t ch s = Some s' -> mutex_inv s -> park_inv s -> park_inv s'.
Proof.
  intros c t ch s s' H M Inv x. pose proof (Inv I_) as PI. pose proof (Inv O_) as PO.
  pose proof (park_enq x (s_thr s)) as PE. pose proof (M x) as Mx. clear Inv M.
  step_case t H.
  all: sides.
  all: intros Nz.
  all: try (first [apply PI | apply PO]; match type of Nz with context [tot ?g ?l] => sum g end; lia).
  all: try assumption.
  all: exfalso; match type of Nz with context [tot ?g ?l] => sum g end.
  all: match goal with
       | Hq : h_q ?h = ?e :: ?l, P : tot _ _ <> 0 -> h_q ?h = [] |- _ =>
           rewrite P in Hq by lia; discriminate Hq
       | Hp : nth_error _ _ = Some (PEnq ?y ?e ?k) |- _ =>
           pose proof (tot_ge (enq y) _ _ _ Hp) as G; cbn in G;
           destruct (h_owner _) in Mx; lia
       end.
Qed.

(** ** What the log says *)
Ltac logs := unfold puts, takes, calls, returns, drops, gets, frees, produced, published in *;
  rewrite ?flat_map_app, ?count_occ_app in *;
  cbn [flat_map only side_eqb app] in *;
  rewrite ?app_nil_r, ?app_assoc, ?count_occ_app in *.

Definition fifo_inv (s : st) : Prop := forall x,
  puts x (s_log s) = takes x (s_log s) ++ queue x s.

Lemma fifo_step : forall c t ch s s', step c t ch s = Some s' -> fifo_inv s -> fifo_inv s'.
Proof.
  intros c t ch s s' H Inv x. pose proof (Inv x) as F. clear Inv.
  step_case t H; clear T.
  all: sides; logs; try assumption.
  all: try (rewrite F; rewrite <- ?app_assoc; cbn [app]; congruence).
Qed.

Global Opaque entry_dec job_dec.

Definition cnt (l : list entry) (e : entry) : nat := count_occ entry_dec l e.
Definition jcnt (l : list (entry * Z)) (e : entry * Z) : nat := count_occ job_dec l e.

(** the part of the take count that concerns get_oput *)
Definition fetched (x : side) (l : list event) : list entry :=
  match x with I_ => [] | O_ => gets l end.
Definition fetch (x : side) (p : pc) : list entry :=
  match x with I_ => [] | O_ => fetching p end.

Definition taken_inv (s : st) : Prop := forall x e,
  cnt (takes x (s_log s)) e =
    cnt (calls x (s_log s)) e + cnt (drops x (s_log s)) e
    + tot (fun p => cnt (holding x p) e) (s_thr s)
    + cnt (fetched x (s_log s)) e + tot (fun p => cnt (fetch x p) e) (s_thr s).

Ltac sumall :=
  repeat match goal with |- context [tot ?g (upd ?l ?t ?p')] =>
    match goal with T : forall (_ : pc -> nat) (_ : pc), _ |- _ =>
      let E := fresh "E" in pose proof (T g p') as E;
      let v := fresh "v" in set (v := tot g (upd l t p')) in *; clearbody v;
      match type of E with context [tot g ?l0] =>
        let u := fresh "u" in set (u := tot g l0) in *; clearbody u end;
      cbn in E end end.

Ltac decs := repeat match goal with
  | |- context [if ?d then _ else _] => destruct d
  | _ : context [if ?d then _ else _] |- _ => destruct d end.

Lemma taken_step : forall c t ch s s', step c t ch s = Some s' -> taken_inv s -> taken_inv s'.
Proof.
  intros c t ch s s' H Inv x e0. pose proof (Inv x e0) as F. clear Inv.
  step_case t H.
  all: sides; unfold fetched, cnt in *; logs.
  all: sumall.
  all: (cbn [count_occ] in *; decs; try congruence; lia).
Qed.

(** entries a thread owns (must free) *)
Definition owning (p : pc) : list entry :=
  match p with
  | LGot _ e | LRun _ e | LIn _ e | LFree _ e => [e]
  | PLock _ _ (ToLoop e) | PEnq _ _ (ToLoop e) | PSig _ (ToLoop e) | PUnl _ (ToLoop e) => [e]
  | GUnl (Some e) | GRet (Some e) => [e]
  | _ => [] end.

Definition free_inv (s : st) : Prop := forall e,
  cnt (takes I_ (s_log s)) e + cnt (takes O_ (s_log s)) e =
    cnt (frees (s_log s)) e + tot (fun p => cnt (owning p) e) (s_thr s).

Lemma free_step : forall c t ch s s', step c t ch s = Some s' -> free_inv s -> free_inv s'.
Proof.
  intros c t ch s s' H Inv e0. pose proof (Inv e0) as F. clear Inv.
  step_case t H.
  all: sides; unfold cnt in *; logs.
  all: sumall.
  all: (cbn [count_occ] in *; decs; try congruence; lia).
Qed.

Definition return_inv (s : st) : Prop := forall x e,
  cnt (calls x (s_log s)) e =
    cnt (returns x (s_log s)) e + tot (fun p => cnt (inside x p) e) (s_thr s).

Lemma return_step : forall c t ch s s', step c t ch s = Some s' -> return_inv s -> return_inv s'.
Proof.
  intros c t ch s s' H Inv x e0. pose proof (Inv x e0) as F. clear Inv.
  step_case t H.
  all: sides; unfold cnt in *; logs.
  all: sumall.
  all: (cbn [count_occ] in *; decs; try congruence; lia).
Qed.

Definition output_inv (s : st) : Prop := forall j,
  jcnt (produced (s_log s)) j =
    jcnt (published (s_log s)) j + tot (fun p => jcnt (publishing p) j) (s_thr s).

Lemma output_step : forall c t ch s s', step c t ch s = Some s' -> output_inv s -> output_inv s'.
Proof.
  intros c t ch s s' H Inv e0. pose proof (Inv e0) as F. clear Inv.
  step_case t H.
  all: sides; unfold jcnt in *; logs.
  all: sumall.
  all: (cbn [count_occ] in *; decs; try congruence; lia).
Qed.

(** ** Fresh nodes *)
Definition idc (l : list entry) (i : nat) : nat := count_occ Nat.eq_dec (map e_id l) i.
Definition carrying (p : pc) : list entry :=
  match p with PLock _ e _ | PEnq _ e _ => [e] | _ => [] end.

Definition ids_inv (s : st) : Prop := forall i,
  idc (puts I_ (s_log s)) i + idc (puts O_ (s_log s)) i
  + tot (fun p => idc (carrying p) i) (s_thr s) <= if i <? s_next s then 1 else 0.

Lemma ids_step : forall c t ch s s', step c t ch s = Some s' -> ids_inv s -> ids_inv s'.
Proof.
  intros c t ch s s' H Inv i. pose proof (Inv i) as F. clear Inv.
  step_case t H.
  all: sides; unfold idc in *; logs; rewrite ?map_app, ?count_occ_app.
  all: sumall.
  all: cbn [map e_id count_occ] in *.
  all: repeat match goal with |- context [?a <? ?b] => destruct (Nat.ltb_spec a b)
       | _ : context [?a <? ?b] |- _ => destruct (Nat.ltb_spec a b) end.
  all: (decs; try congruence; lia).
Qed.

(** ** Who runs what *)
Inductive role := RPool (x : side) | RClient.
Definition role_of (p : pc) : role :=
  match p with
  | LTop x | LLocked x | LExit x | LToWait x | LWait x | LWoken x | LReacq x
  | LGot x _ | LRun x _ | LIn x _ | LFree x _ | LDone x => RPool x
  | PLock _ _ (ToLoop _) | PEnq _ _ (ToLoop _) | PSig _ (ToLoop _) | PUnl _ (ToLoop _) => RPool I_
  | _ => RClient end.
(** the role of thread number t in a pool of n + n *)
Definition role_at (n t : nat) : role :=
  if t <? n then RPool I_ else if t <? 2 * n then RPool O_ else RClient.

Definition sane (n : nat) (p : pc) : Prop :=
  match p with
  | PLock x _ (ToLoop _) | PEnq x _ (ToLoop _) | PSig x (ToLoop _) | PUnl x (ToLoop _) => x = O_
  | KJoin j => j <= 2 * n
  | _ => True end.

Definition role_inv (s : st) : Prop :=
  2 * s_n s <= length (s_thr s) /\
  forall t p, nth_error (s_thr s) t = Some p -> role_of p = role_at (s_n s) t /\ sane (s_n s) p.

Lemma upd_role : forall n l t p p',
  (forall t p, nth_error l t = Some p -> role_of p = role_at n t /\ sane n p) ->
  nth_error l t = Some p -> role_of p' = role_of p -> sane n p' ->
  forall u q, nth_error (upd l t p') u = Some q -> role_of q = role_at n u /\ sane n q.
Proof.
  intros n l t p p' H Hp Hr Hs u q Hu. rewrite upd_nth_error in Hu.
  destruct (Nat.eqb_spec u t) as [->|Ne].
  - destruct (t <? length l); [|discriminate]. injection Hu as <-.
    destruct (H _ _ Hp) as [A _]. split; [congruence|exact Hs].
  - exact (H _ _ Hu).
Qed.

Lemma wake_role : forall n x l,
  (forall t p, nth_error l t = Some p -> role_of p = role_at n t /\ sane n p) ->
  (forall t p, nth_error (wake_all x l) t = Some p -> role_of p = role_at n t /\ sane n p).
Proof.
  intros n x l H t p Hp. rewrite wake_all_nth in Hp.
  destruct (nth_error l t) as [q|] eqn:E; [|discriminate]. cbn in Hp.
  destruct (H _ _ E) as [A B]. destruct (waits x q) eqn:W.
  - apply waits_spec in W. subst q. assert (p = LWoken x) by congruence. subst. split; [exact A|exact Logic.I].
  - assert (p = q) by congruence. subst. split; assumption.
Qed.

Lemma role_step : forall c t ch s s', step c t ch s = Some s' -> role_inv s -> role_inv s'.
Proof.
  intros c t ch s s' H [L R].
  step_case t H; clear T.
  all: sides; (split; [cbn [s_thr s_n]; rewrite ?upd_length, ?wake_len; rewrite ?upd_length; exact L|]).
  all: cbn [s_n s_thr].
  all: destruct (R _ _ Hp) as [R1 S1]; cbn in S1.
  all: try (eapply upd_role; [exact R|eassumption|cbn; congruence|cbn; try lia; try congruence; try exact Logic.I]).
  all: first
    [ eapply upd_role; [|rewrite upd_nth_error; destruct (Nat.eqb_spec t w); [congruence|exact Hp]
                        |reflexivity|first [exact S1|exact Logic.I]];
      eapply upd_role; [exact R|exact Hw|reflexivity|exact Logic.I]
    | eapply upd_role; [apply wake_role; exact R|rewrite wake_all_nth, Hp; reflexivity
                        |reflexivity|cbn; lia || exact Logic.I] ].
Qed.
