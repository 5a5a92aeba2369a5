(** Model of the memory of configurations: src/libzt/zt_cfg/cfg_private.c and cfg_ini.c on a heap of blocks at addresses an allocator picks.  What is stored, and the parsing of lines, are CfgModel's.
    Every struct and every string is a block; each use checks that the block is there.  Simplifications: malloc succeeds; the string arguments of zt_cfg_set and zt_cfg_get are the caller's, not in the heap; the stack buffers of the parser, numentries, opts, [altered] and the log are left out. *)
From Verif Require Import Prelude AmemModel OptsModel CfgModel.
Local Open Scope Z_scope.

(* cfg_private.h:24-50: struct zt_cfg_value_ty, zt_cfg_block_ty, zt_cfg_ty; a string *)
Inductive cval := VBool (b : Z) | VInt (n : Z) | VFloat (t : text) | VStr (p : nat) | VRef (p : nat).
Inductive cell :=
| CStr (s : text)
| CVal (name : option nat) (v : cval) (next : option nat)
| CBlk (name : option nat) (head next : option nat)
| CCfg (file : option nat) (head : option nat).
Record cmem := mkcm { cells : list (nat * cell); tick : nat }.

Definition rd_str (m : cmem) (p : nat) : outcome text := match aget (cells m) p with Some (CStr s) => Ok s | _ => UB end.
Definition rd_name (m : cmem) (p : option nat) : outcome text := match p with Some p => rd_str m p | None => UB end.
Definition rd_val (m : cmem) (p : nat) : outcome (option nat * cval * option nat) := match aget (cells m) p with Some (CVal n v x) => Ok (n, v, x) | _ => UB end.
Definition rd_blk (m : cmem) (p : nat) : outcome (option nat * option nat * option nat) := match aget (cells m) p with Some (CBlk n h x) => Ok (n, h, x) | _ => UB end.
Definition rd_cfg (m : cmem) (p : nat) : outcome (option nat * option nat) := match aget (cells m) p with Some (CCfg f h) => Ok (f, h) | _ => UB end.
Definition put (m : cmem) (p : nat) (c : cell) : cmem := mkcm (aput (cells m) p c) (tick m).
(* free(NULL) does nothing *)
Definition cfree (m : cmem) (p : nat) : outcome cmem := match aget (cells m) p with Some _ => Ok (mkcm (adel (cells m) p) (tick m)) | None => UB end.
Definition cfree_opt (m : cmem) (p : option nat) : outcome cmem := match p with Some p => cfree m p | None => Ok m end.

(* cfg_private.c:66-76 get_block; fuel: the number of blocks in the heap *)
Fixpoint m_get_block (fuel : nat) (m : cmem) (p : option nat) (name : text) : outcome (option nat) :=
  match p with
  | None => Ok None
  | Some a => match fuel with O => Loop | S fuel => ' (nm, _, nx) <- rd_blk m a ;; s <- rd_name m nm ;; if text_eqb name s then Ok (Some a) else m_get_block fuel m nx name end
  end.
(* cfg_private.c:97-107 get_variable *)
Fixpoint m_get_variable (fuel : nat) (m : cmem) (p : option nat) (name : text) : outcome (option nat) :=
  match p with
  | None => Ok None
  | Some a => match fuel with O => Loop | S fuel => ' (nm, _, nx) <- rd_val m a ;; s <- rd_name m nm ;; if text_eqb s name then Ok (Some a) else m_get_variable fuel m nx name end
  end.
Definition size (m : cmem) : nat := length (cells m).
(* cfg_private.c:267-269 *)
Fixpoint m_resolve (fuel : nat) (m : cmem) (p : nat) : outcome cval :=
  ' (_, v, _) <- rd_val m p ;;
  match v with VRef q => match fuel with O => Loop | S fuel => m_resolve fuel m q end | _ => Ok v end.
Definition vtype (v : cval) : ty := match v with VBool _ => TBool | VInt _ => TInt | VFloat _ => TFloat | VStr _ => TString | VRef _ => TRef end.
(* cfg_private.c:248-294 zt_cfg_priv_get: a string is answered as a pointer to the value's own *)
Definition m_get (fuel : nat) (m : cmem) (cfg : nat) (b v : text) (t : ty) : outcome (Z * option cval) :=
  ' (_, head) <- rd_cfg m cfg ;;
  q <- m_get_block (size m) m head b ;;
  match q with
  | None => Ok (-1, None)
  | Some q =>
      ' (_, vs, _) <- rd_blk m q ;;
      x <- m_get_variable (size m) m vs v ;;
      match x with
      | None => Ok (-1, None)
      | Some x => e <- m_resolve fuel m x ;; if code (vtype e) =? code t then Ok (code t, Some e) else Ok (-1, None)
      end
  end.

(* cfg_private.c:296-332 zt_cfg_priv_destructor: the values of a block, the blocks *)
Fixpoint m_free_vals (fuel : nat) (m : cmem) (p : option nat) : outcome cmem :=
  match p with
  | None => Ok m
  | Some a =>
      match fuel with
      | O => Loop
      | S fuel =>
          ' (nm, v, nx) <- rd_val m a ;;
          m <- (match v with VStr s => cfree m s | _ => Ok m end) ;;
          m <- cfree_opt m nm ;;
          m <- cfree m a ;;
          m_free_vals fuel m nx
      end
  end.
Fixpoint m_free_blocks (fuel : nat) (m : cmem) (p : option nat) : outcome cmem :=
  match p with
  | None => Ok m
  | Some a =>
      match fuel with
      | O => Loop
      | S fuel =>
          ' (nm, vs, nx) <- rd_blk m a ;;
          m <- m_free_vals (size m) m vs ;;
          m <- cfree_opt m nm ;;
          m <- cfree m a ;;
          m_free_blocks fuel m nx
      end
  end.
Definition m_close (m : cmem) (cfg : nat) : outcome cmem :=
  ' (f, head) <- rd_cfg m cfg ;;
  m <- m_free_blocks (size m) m head ;;
  m <- cfree_opt m f ;;
  cfree m cfg.

Section M.
Variable pick : nat -> list nat -> nat.
Definition cnew (m : cmem) (c : cell) : nat * cmem := let x := pick (tick m) (map fst (cells m)) in (x, mkcm ((x, c) :: cells m) (S (tick m))).

(* cfg_private.c:78-95 add_block *)
Definition m_add_block (m : cmem) (cfg : nat) (name : text) : outcome (nat * cmem) :=
  ' (f, head) <- rd_cfg m cfg ;;
  q <- m_get_block (size m) m head name ;;
  match q with
  | Some a => Ok (a, m)
  | None =>
      let '(a, m) := cnew m (CBlk None None None) in
      let '(s, m) := cnew m (CStr name) in
      Ok (a, put (put m a (CBlk (Some s) None head)) cfg (CCfg f (Some a)))
  end.
(* cfg_private.c:109-126 add_variable *)
Definition m_add_variable (m : cmem) (blk : nat) (name : text) : outcome (nat * cmem) :=
  ' (bn, head, bx) <- rd_blk m blk ;;
  q <- m_get_variable (size m) m head name ;;
  match q with
  | Some a => Ok (a, m)
  | None =>
      let '(a, m) := cnew m (CVal None (VBool 0) None) in
      let '(s, m) := cnew m (CStr name) in
      Ok (a, put (put m a (CVal (Some s) (VBool 0) head)) blk (CBlk bn (Some a) bx))
  end.
(* cfg_private.c:170-206 cfg_insert_bvv; bp, vp, tp: the strings of the bvv.  A value that was there is overwritten, whatever it pointed to (128-168 get_type) *)
Definition m_insert (isfloat : text -> bool) (m : cmem) (cfg bp vp tp : nat) : outcome cmem :=
  b <- rd_str m bp ;; v <- rd_str m vp ;; t <- rd_str m tp ;;
  ' (ba, m) <- m_add_block m cfg b ;;
  ' (va, m) <- m_add_variable m ba v ;;
  ' (nm, _, nx) <- rd_val m va ;;
  match get_type isfloat t with
  | EBool z => Ok (put m va (CVal nm (VBool z) nx))
  | EInt z => Ok (put m va (CVal nm (VInt z) nx))
  | EFloat z => Ok (put m va (CVal nm (VFloat z) nx))
  | ERef _ _ => UB
  | EString s =>
      let m := match t with c :: _ => if (c =? 39) || (c =? 34) then put m tp (CStr (removelast t)) else m | [] => m end in
      let '(sp, m) := cnew m (CStr s) in
      let m := put m va (CVal nm (VStr sp) nx) in
      match split_dot s with
      | None => Ok m
      | Some (rb, rv) =>
          let '(tmp, m) := cnew m (CStr rb) in
          ' (_, head) <- rd_cfg m cfg ;;
          q <- m_get_block (size m) m head rb ;;
          m <- (match q with
                | None => Ok m
                | Some q =>
                    ' (_, vs, _) <- rd_blk m q ;;
                    x <- m_get_variable (size m) m vs rv ;;
                    match x with
                    | None => Ok m
                    | Some w => m <- cfree m sp ;; Ok (put m va (CVal nm (VRef w) nx))
                    end
                end) ;;
          cfree m tmp
      end
  end.
(* cfg_private.c:209-246 zt_cfg_priv_set: a refused argument leaves the three strings *)
Definition m_set (isfloat : text -> bool) (m : cmem) (cfg : nat) (b v : text) (a : arg) : outcome (Z * cmem) :=
  let '(bp, m) := cnew m (CStr b) in
  let '(vp, m) := cnew m (CStr v) in
  let '(tp, m) := cnew m (CStr []) in
  match (match a with AInt n => Some (print_long n) | AFloat t => Some t | ABool s => Some s | AString s => Some s | ABoolInt => None end) with
  | None => Ok (-1, m)
  | Some t =>
      let m := put m tp (CStr (bounded t)) in
      m <- m_insert isfloat m cfg bp vp tp ;;
      m <- cfree m bp ;; m <- cfree m vp ;; m <- cfree m tp ;;
      Ok (1, m)
  end.
(* cfg_ini.c:169-224 parse_file; blk: bvv.block.  On an error the strings of the bvv and what was inserted stay *)
Fixpoint m_parse (isfloat : text -> bool) (fuel : nat) (f : text) (blk : option nat) (m : cmem) (cfg : nat) {struct fuel} : outcome (Z * cmem) :=
  match f with
  | [] => m <- cfree_opt m blk ;; Ok (0, m)
  | c :: r =>
      match fuel with
      | O => Loop
      | S fuel =>
          if c =? 10 then m_parse isfloat fuel r blk m cfg
          else if c =? 91 then
            m <- cfree_opt m blk ;;
            let '(n, r1) := read_block r 0 in
            match n with
            | None => m_parse isfloat fuel (discard_line r1) None m cfg
            | Some n => let '(x, m) := cnew m (CStr (cut0 n)) in m_parse isfloat fuel (discard_line r1) (Some x) m cfg
            end
          else if (c =? 59) || (c =? 35) then m_parse isfloat fuel (discard_line r) blk m cfg
          else if isblank c then m_parse isfloat fuel (discard_blank r) blk m cfg
          else
            ' (kv, r1) <- parse_line f ;;
            match kv with
            | None => Ok (-1, m)
            | Some (var, val) =>
                let '(vp, m) := cnew m (CStr var) in
                let '(tp, m) := cnew m (CStr val) in
                match blk with
                | None => UB
                | Some bp =>
                    m <- m_insert isfloat m cfg bp vp tp ;;
                    m <- cfree m vp ;; m <- cfree m tp ;;
                    m_parse isfloat fuel r1 blk m cfg
                end
            end
      end
  end.
(* cfg_ini.c:39-66 zt_cfg_ini, parse_cfg: f is what the file holds, None if it cannot be opened *)
Definition m_ini (isfloat : text -> bool) (m : cmem) (name : text) (f : option text) : outcome (option nat * cmem) :=
  let '(cfg, m) := cnew m (CCfg None None) in
  let '(fn, m) := cnew m (CStr name) in
  let m := put m cfg (CCfg (Some fn) None) in
  ' (rc, m) <- (match f with
                | None => Ok (-1, m)
                | Some f => let '(bp, m) := cnew m (CStr global) in m_parse isfloat (S (length f)) f (Some bp) m cfg
                end) ;;
  if rc <? 0 then m <- cfree m fn ;; m <- cfree m cfg ;; Ok (None, m) else Ok (Some cfg, m).
End M.
