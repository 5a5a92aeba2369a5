(** Model of src/libzt/zt_progname.c (Linux).  [pm] is PATH_MAX; the two static buffers have pm + 1 bytes.
    What the system answers (PATH, stat, the working directory, /proc/<pid>/exe) is a parameter. *)
From Verif Require Import Prelude CstrModel.
Open Scope Z_scope.

Definition text := list Z.
(* zt_progname.c:34 *)
Definition UNKNOWN : text := [42; 85; 78; 75; 78; 79; 87; 78; 42].
(* zt_progname.c:35-36 *)
Definition buf0 (pm : Z) : list Z := UNKNOWN ++ repeat 0 (Z.to_nat (pm + 1) - length UNKNOWN).

(* zt_progname.c:38-50 zt_progname: the buffer afterwards (its text is what is returned); NULL is None; strip: opts == STRIP_DIR *)
Definition progname (pm : Z) (buf : list Z) (name : option text) (strip : bool) : outcome (list Z) :=
  match name with
  | None | Some [] => Ok buf
  | Some nm =>
      b <- memset0 buf pm ;;
      if strip then zt_cstr_basename b pm nm None
      else memcpy b nm (Z.min pm (zlen nm))
  end.

(** the answers of the system: getenv("PATH"), stat(p) == 0, getcwd, and readlink of /proc/<pid>/exe (76-108; the empty text if that fails) *)
Record env := mkenv { e_path : option text; e_stat : text -> bool; e_cwd : option text; e_exe : text }.

Definition ENV_SEPERATOR : text := [58]. (* zt.h:121 *)
Definition text_eqb (a b : text) : bool := if list_eq_dec Z.eq_dec a b then true else false.

(* zt_progname.c:145-169; the catv arguments base and offt-1 are read back as int (offt - 1 = SIZE_MAX is -1) *)
Fixpoint search (fuel : nat) (pm : Z) (stat : text -> bool) (path prog : text) (offt base : Z) (buf : list Z) : outcome (bool * list Z) :=
  if offt <? zlen path then
    match fuel with
    | O => Loop
    | S f =>
        sofft <- zt_cstr_any path offt (-1) ENV_SEPERATOR ;;
        if sofft <? 0 then Ok (false, buf) else
        t <- zt_cstr_catv [(path, base, sofft - 1); (PATH_SEPERATOR, 0, -1); (prog, 0, -1)] ;;
        let t := cstring t in
        if stat t then b <- zt_cstr_dirname buf pm t ;; Ok (true, b)
        else search f pm stat path prog (sofft + 1) (sofft + 1) buf
    end
  else Ok (false, buf).

(* zt_progname.c:110-201 zt_progpath: the buffer afterwards *)
Definition progpath (pm : Z) (e : env) (buf : list Z) (prog : option text) : outcome (list Z) :=
  match prog with
  | None | Some [] => Ok buf
  | Some pr =>
      b <- memset0 buf pm ;;
      b <- zt_cstr_dirname b pm pr ;;
      let d := cstring b in
      if text_eqb d [] || text_eqb d [46] then
        match e_path e with
        | None => zt_cstr_dirname b pm (e_exe e)            (* 131-142 *)
        | Some p =>
            ' (found, b) <- search (S (length p)) pm (e_stat e) p pr 0 0 b ;;
            if found : bool then Ok b
            else if text_eqb (cstring b) [46] then          (* 171-178 *)
              match e_cwd e with
              | None => Ok b
              | Some c => ' (_, b) <- zt_cstr_copy c 0 (-1) b pm ;; Ok b
              end
            else Ok b
        end
      else
        match e_cwd e with                                   (* 179-198 *)
        | None => Ok b
        | Some c =>
            if hd 0 d =? 47 then Ok b else
            let pp := match d with 46 :: 47 :: r => r | _ => d end in
            t <- zt_cstr_path_append c pp ;;
            ' (_, b) <- zt_cstr_copy (cstring t) 0 (-1) b pm ;; Ok b
        end
  end.
