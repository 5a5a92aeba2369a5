(** Model of zt_path.c: zt_mkdir, zt_path_exists, zt_find_basedir.

    The file system is a set of directories and a set of other files, each named by the list of
    component names from the root; [deny] holds the directories the system refuses to create for any
    reason other than existence (permission, name too long, disk full ...).  Path resolution handles
    empty components, "." and "..".
    Simplified: no symbolic links, no permission check on lookup, [deny] does not change during a
    call, nobody else changes the file system during a call; `mode` and error logging are dropped. *)
From Verif Require Import Prelude CstrModel CstrSpec.
Open Scope Z_scope.

Notation text := (list Z).

(* limits.h: PATH_MAX; buffers are char[PATH_MAX + 1] (zt_path.c:18, 93-94) *)
Definition PATH_MAX : Z := 4096.

Fixpoint text_eqb (a b : text) : bool :=
  match a, b with
  | [], [] => true
  | x :: a', y :: b' => (x =? y) && text_eqb a' b'
  | _, _ => false
  end.
Fixpoint node_eqb (a b : list text) : bool :=
  match a, b with
  | [], [] => true
  | x :: a', y :: b' => text_eqb x y && node_eqb a' b'
  | _, _ => false
  end.
Definition mem (n : list text) (l : list (list text)) : bool := existsb (node_eqb n) l.

Record fs := { dirs : list (list text); files : list (list text); deny : list text -> bool }.

(** ** The operating system's part *)

(** names between the slashes *)
Definition comps (p : text) : list text := filter nonempty (fields PATH_SEPERATOR p).
Definition absolute (p : text) : bool := match p with c :: _ => c =? 47 | [] => false end.
(** where one name leads from a directory *)
Definition enter (d : list text) (c : text) : list text :=
  if text_eqb c [46] then d else if text_eqb c [46; 46] then removelast d else d ++ [c].
(** follow names through existing directories *)
Fixpoint follow (f : fs) (d : list text) (cs : list text) : option (list text) :=
  match cs with
  | [] => Some d
  | c :: r => let n := enter d c in if mem n (dirs f) then follow f n r else None
  end.
Definition start (cwd : list text) (p : text) : list text := if absolute p then [] else cwd.
Definition ends_slash (p : text) : bool := last p 0 =? 47.
Definition special (c : text) : bool := text_eqb c [46] || text_eqb c [46; 46].

(** stat(2): true when the path names an existing directory or file *)
Definition stat (f : fs) (cwd : list text) (p : text) : bool :=
  nonempty p && (zlen p <? PATH_MAX) &&
  match comps p with
  | [] => true
  | cs => match follow f (start cwd p) (removelast cs) with
          | None => false
          | Some d => let n := enter d (last cs []) in
                      mem n (dirs f) || (mem n (files f) && negb (ends_slash p))
          end
  end.

Inductive mkres := MkOk (f : fs) | MkExists | MkError.
(** mkdir(2) *)
Definition mkdir (f : fs) (cwd : list text) (p : text) : mkres :=
  if negb (nonempty p && (zlen p <? PATH_MAX)) then MkError
  else match comps p with
  | [] => MkExists
  | cs => match follow f (start cwd p) (removelast cs) with
          | None => MkError
          | Some d => let c := last cs [] in
                      if special c then MkExists
                      else let n := d ++ [c] in
                      if mem n (dirs f) || mem n (files f) then MkExists
                      else if deny f n then MkError
                      else MkOk {| dirs := n :: dirs f; files := files f; deny := deny f |}
          end
  end.

(** ** zt_path.c *)

(* zt_path.c:42-62: the loop over the separators of the path; cpath is the text up to the separator
   (the buffer was cleared and only ever receives longer prefixes of the same path); PATH_MAX + 1
   characters leave it unterminated.  Some f: reached the end of the path; None: mkdir failed. *)
Fixpoint parents (fuel : nat) (f : fs) (cwd : list text) (path : text) (offt : Z) : outcome (bool * fs) :=
  if offt <? zlen path then
    match fuel with
    | O => Loop
    | S fuel =>
        o <- zt_cstr_find path offt (-1) PATH_SEPERATOR ;;
        if o =? -1 then Ok (true, f)
        else
          _ <- safe (o <=? PATH_MAX) ;;
          let cpath := firstn (Z.to_nat o) path in
          let offt' := o + zlen PATH_SEPERATOR in
          if (offt' =? zlen PATH_SEPERATOR) || stat f cwd cpath then parents fuel f cwd path offt'
          else match mkdir f cwd cpath with
               | MkOk f' => parents fuel f' cwd path offt'
               | _ => Ok (false, f)
               end
    end
  else Ok (true, f).

(* zt_path.c:15-68; [create_parent] is ZT_BIT_ISSET(flags, zt_mkdir_create_parent); the goto AGAIN
   is the recursive call *)
Fixpoint zt_mkdir (fuel : nat) (f : fs) (cwd : list text) (path : text) (create_parent : bool) :
  outcome (Z * fs) :=
  match mkdir f cwd path with
  | MkOk f' => Ok (0, f')
  | MkExists => Ok (0, f)
  | MkError =>
      if negb create_parent then Ok (-1, f)
      else
        ' (go, f') <- parents (length path) f cwd path 0 ;;
        if (go : bool) then
          match fuel with
          | O => Loop
          | S fuel => zt_mkdir fuel f' cwd path create_parent
          end
        else Ok (-1, f')
  end.

(* zt_path.c:73-82 *)
Definition zt_path_exists (f : fs) (cwd : list text) (path : text) : Z :=
  if stat f cwd path then 0 else -1.

(* zt_path.c:100-117: [ex] is `stat(cpath, &sbuf) == 0`; snprintf keeps at most PATH_MAX characters *)
Fixpoint basedir_loop (fuel : nat) (ex : text -> bool) (lpath trigger : text) : outcome (option text) :=
  match fuel with
  | O => Loop
  | S fuel =>
      let cpath := firstn (Z.to_nat PATH_MAX) (lpath ++ PATH_SEPERATOR ++ trigger) in
      if ex cpath then Ok (Some (lpath ++ PATH_SEPERATOR))
      else if zlen lpath =? 0 then Ok None
      else
        offt <- zt_cstr_rfind lpath 0 (-1) PATH_SEPERATOR ;;
        if offt =? -1 then Ok None
        else basedir_loop fuel ex (firstn (Z.to_nat offt) lpath) trigger
  end.
(* zt_path.c:88-120: a path that fills lpath leaves it unterminated *)
Definition zt_find_basedir (ex : text -> bool) (path trigger : text) : outcome (option text) :=
  _ <- safe (zlen path <=? PATH_MAX) ;;
  basedir_loop (S (length path)) ex path trigger.
