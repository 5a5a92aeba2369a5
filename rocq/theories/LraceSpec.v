(** What is asked of zt_log used by several threads (C74). *)
From Verif Require Import Prelude Heap CstrModel LogModel LogSpec LraceModel.
Local Open Scope Z_scope.

(** the logger made when a message needs a default logger and there is none: stderr, with the level, everything shown *)
Definition made : logger := mklogger Stderr 2 8.
(** programs that print and install loggers, but neither uninstall nor close any; every logger they name exists, every message is well formed *)
Definition calm (h : heap logger) (o : op) : Prop :=
  match o with
  | Print log d level fmt args => (log = 0%nat \/ cells h log <> None) /\ 0 <= level /\ (exists t, vprintf fmt args = Ok t) /\ match d with Some d => dbg_ok d /\ dbg_plain d | None => True end
  | Logger p => cells h p <> None
  | Close _ => False
  end.
(** at the start: no call is under way, nothing is printed; the default logger, if any, exists *)
Definition fresh_start (g : shared) : Prop := wf (lgs g) /\ mutex g = None /\ out g = [] /\ (dflt g = 0%nat \/ cells (lgs g) (dflt g) <> None).
(** the loggers that can be the default one: the one at the start, those installed by some thread, and the one made when there was none *)
Definition default_at_some_time (g : shared) (ps : list (list op)) (q : nat) : Prop :=
  q <> 0%nat /\ (q = dflt g \/ (exists p, In p ps /\ In (Logger q) p) \/ (dflt g = 0%nat /\ q = fresh (lgs g))).
(** what calls print, in their order: each message once, on the logger named or else on some default one, if its level is within that logger's; after it the position
    given with it (None: none) *)
Inductive prints (e : env) (h : heap logger) (dfl : nat -> Prop) : list op -> list (nat * text) -> Prop :=
| Pr_none : prints e h dfl [] []
| Pr_logger l o p : prints e h dfl l o -> prints e h dfl (l ++ [Logger p]) o
| Pr_below l o log d level fmt args q lg : prints e h dfl l o -> (if (log =? 0)%nat then dfl q else q = log) -> cells h q = Some lg -> l_level lg < level ->
    prints e h dfl (l ++ [Print log d level fmt args]) o
| Pr_shown l o log d level fmt args q lg t : prints e h dfl l o -> (if (log =? 0)%nat then dfl q else q = log) -> cells h q = Some lg -> level <= l_level lg -> vprintf fmt args = Ok t ->
    prints e h dfl (l ++ [Print log d level fmt args]) (o ++ [(q, prefix (shown_opts lg) e level ++ t ++ suffix (match d with Some d => d | None => mkdbg None (-1) None end))]).
(** what thread [i] printed *)
Definition by_thread (i : nat) (l : list (nat * (nat * text))) : list (nat * text) := map snd (filter (fun x => (fst x =? i)%nat) l).
(** all calls of all threads have returned *)
Definition finished (w : world) : Prop := forall t, In t (ths w) -> todo t = [].
(** the loggers a list of calls installs *)
Definition installs (l : list op) : list nat := flat_map (fun o => match o with Logger p => [p] | _ => [] end) l.
Definition real (l : list nat) : list nat := filter (fun p => negb (p =? 0)%nat) l.
(** [n] steps, each of a thread that could make one *)
Inductive moves (e : env) : nat -> world -> world -> Prop :=
| Mv_none w : moves e 0 w w
| Mv_step n w i t g t' w' : nth_error (ths w) i = Some t -> tstep e i (gl w) t = Ok (Some (g, t')) -> moves e n (mkworld g (upd (ths w) i t')) w' -> moves e (S n) w w'.
