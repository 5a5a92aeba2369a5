(** What a failed assertion says, and to whom. *)
From Verif Require Import Prelude Heap CstrModel CstrSpec LogModel LogSpec.
From Coq Require Import Ascii String.
Local Open Scope Z_scope.

(** head "text": file[line:function], the function left out if there is none *)
Definition report (head : string) (what base : text) (line : Z) (func : option text) : text :=
  str head ++ str """" ++ what ++ str """: " ++ base ++ str "[" ++ decimal line ++ match func with Some f => str ":" ++ f | None => [] end ++ str "]".
Definition failed (what base : text) (line : Z) (func : option text) : text := report "Assertion Failed: " what base line func.
Definition exiting (what base : text) (line : Z) (func : option text) : text := report "Exiting: " what base line func.
Definition nothing_asserted : text := str "no assertion given".
Definition nothing_said : text := str "no message given".

(** the default logger, if there is one, exists *)
Definition logger_ok (s : state) : Prop := wf (lgs s) /\ (dflt s <> 0%nat -> cells (lgs s) (dflt s) <> None).
(** s' is s after the message t of the given level was given to the default logger, which is made if there is none: it prints to stderr, with level names.
    A logger whose level is below that of the message does not print it. *)
Definition told (s s' : state) (e : env) (level : Z) (t : text) : Prop :=
  (dflt s <> 0%nat -> exists l, cells (lgs s) (dflt s) = Some l /\ lgs s' = lgs s /\ dflt s' = dflt s /\ exits s' = exits s /\ ctx s' = used_up /\
     out s' = out s ++ if level <=? l_level l then [(dflt s, LogSpec.prefix (shown_opts l) e level ++ t ++ suffix (ctx s))] else []) /\
  (dflt s = 0%nat -> exists p, (p <> 0)%nat /\ cells (lgs s) p = None /\ dflt s' = p /\ cells (lgs s') p = Some (mklogger Stderr 2 8) /\
     (forall q, q <> p -> cells (lgs s') q = cells (lgs s) q) /\ exits s' = p :: exits s /\ ctx s' = used_up /\
     out s' = out s ++ [(p, level_name level ++ [58; 32] ++ t ++ suffix (ctx s))]).

Definition malloc_c : text := str "zt_malloc.c".
Definition name_calloc : text := str "zt_calloc_p".
Definition name_malloc : text := str "zt_malloc_p".
Definition name_realloc : text := str "zt_realloc_p".
Definition name_strdup : text := str "zt_strdup_p".
Definition mem_is_null : text := str "mem".
Definition string_is_null : text := str "string".
Definition copy_is_null : text := str "new_string".
