(** Specification vocabulary for C42. *)
From Verif Require Import Prelude CstrSpec PathModel.
Open Scope Z_scope.

(** the directory or file a path means (lexically: "." stays, ".." goes up) *)
Definition node (cwd : list text) (p : text) : list text := fold_left enter (comps p) (start cwd p).

(** [pre] is the path itself, or the part of it before one of its slashes *)
Definition leads (path pre : text) : Prop := pre = path \/ exists post, path = pre ++ 47 :: post.

(** a sane file system: root and working directory exist, every directory has a parent *)
Definition sane (f : fs) (cwd : list text) : Prop :=
  In [] (dirs f) /\ In cwd (dirs f) /\ forall n, In n (dirs f) -> In (removelast n) (dirs f).

(** nothing prevents the directories of the path from being created *)
Definition possible (f : fs) (cwd : list text) (path : text) : Prop :=
  forall pre, leads path pre -> ~ In (node cwd pre) (files f) /\
                                (In (node cwd pre) (dirs f) \/ deny f (node cwd pre) = false).
