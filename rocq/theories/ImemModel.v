(** Model of the memory of address tables: src/libzt/zt_ipv4_tbl.c 17-310 on top of zt_mem.c.  What the tables hold is Ipv4Model's, the pools RegModel's.  A table finds the pools for its rows, nodes and addresses by
    name (zt_mem_pool_get), whoever made them.  Every row, node and address is an element of a pool; each use checks that the element is there and not free, and that a row is as large as what is written.
    Simplifications: malloc succeeds, with the addresses given; the text is parsed already ([net] is what zt_ipv4_str2net answers, None for -1, C29); the struct zt_ipv4_tbl itself and the group's two blocks are not in the state. *)
From Verif Require Import Prelude MemModel RegModel TmemModel.
From Verif Require Ipv4Model.
Import Ipv4Model (tbl, rows, tin, tsz, tany, mktbl, nid, naddr, mknode, bitlen, a_addr, netmask, make_addr, tbl_init, add_node, addr_cmp).
Open Scope Z_scope.

(* zt_ipv4_tbl.c:40,44,48: zt_ipv4_node_hash, zt_ipv4_node, zt_ipv4_addr *)
Definition hash_pool : text := [122; 116; 95; 105; 112; 118; 52; 95; 110; 111; 100; 101; 95; 104; 97; 115; 104].
Definition node_pool : text := [122; 116; 95; 105; 112; 118; 52; 95; 110; 111; 100; 101].
Definition addr_pool : text := [122; 116; 95; 105; 112; 118; 52; 95; 97; 100; 100; 114].
(* zt_ipv4_tbl.h:10-20: sizeof(zt_ipv4_node), sizeof(zt_ipv4_addr), sizeof(zt_ipv4_node * ) (LP64) *)
Definition SIZEOF_NODE : Z := 16.
Definition SIZEOF_ADDR : Z := 16.
Definition SIZEOF_PTR : Z := 8.

(** an element: the pool's address and the element in it *)
Definition handle : Type := nat * elt.
Definition alive (r : reg) (h : handle) : bool :=
  match find (plist r) (fst h) with
  | None => false
  | Some e => existsb (fun pg => (fst pg =? fst (snd h))%nat) (pages (body e)) && (Z.of_nat (snd (snd h)) <? epp (body e)) && negb (existsb (fun x => (fst x =? fst (snd h))%nat && (snd x =? snd (snd h))%nat) (frees (body e)))
  end.

(** a table: its group of pools, the elements its rows are, and what they hold; node number k (nid) is the pair of elements number k of [places], node and address *)
Record itable := mkit { it_group : list (option nat); it_rows : list (option handle); it_tbl : tbl }.
Definition places := list (handle * handle).

(* zt_ipv4_tbl.c:17-29 zt_ipv4_tbl_destroy *)
Definition idestroy (r : reg) (t : itable) : outcome reg := ' (_, r) <- group_destroy r (it_group t) 0 ;; Ok r.
(* zt_ipv4_tbl.c:31-62 zt_ipv4_tbl_init; a1 a2 a3: what malloc gives to the pools *)
Definition iinit (sys : Z) (r : reg) (a1 a2 a3 : nat) (size : Z) : outcome (option itable * reg) :=
  let rsize := if size =? 0 then 128 else size in
  ' (g, r) <- group_init sys r [mkgdesc (Some hash_pool) 1 (SIZEOF_PTR * rsize) None 0; mkgdesc (Some node_pool) 1 SIZEOF_NODE None 0; mkgdesc (Some addr_pool) 1 SIZEOF_ADDR None 0] [Some a1; Some a2; Some a3] ;;
  match g with None => Ok (None, r) | Some g => Ok (Some (mkit g (repeat None 32) (tbl_init size)), r) end.
(* zt_ipv4_tbl.c:65-96 zt_ipv4_addr_frm_str *)
Definition iaddr (r : reg) (net : option (Z * Z)) : outcome (option (handle * Ipv4Model.addr) * reg) :=
  p <- get r (Some addr_pool) ;;
  match p, net with
  | Some a, Some (ip, b) =>
      ' (r, x) <- alloc_in r a ;; _ <- safe (room r a SIZEOF_ADDR) ;; v <- make_addr ip b ;; Ok (Some ((a, x), v), r)
  | _, _ => Ok (None, r)
  end.
(* zt_ipv4_tbl.c:98-125 zt_ipv4_node_str_init: an element that was allocated is not given back when the text is wrong *)
Definition inode (r : reg) (net : option (Z * Z)) : outcome (option (handle * handle * Ipv4Model.addr) * reg) :=
  p <- get r (Some node_pool) ;;
  match p with
  | None => Ok (None, r)
  | Some a =>
      ' (r, x) <- alloc_in r a ;;
      ' (y, r) <- iaddr r net ;;
      match y with
      | None => Ok (None, r)
      | Some (ha, v) => _ <- safe (room r a SIZEOF_NODE) ;; Ok (Some ((a, x), ha, v), r)
      end
  end.
(* zt_ipv4_tbl.c:127-209 zt_ipv4_tbl_add_node; the node, number id, is at (hn, ha) *)
Definition iadd_node (r : reg) (t : itable) (id : nat) (hn ha : handle) (v : Ipv4Model.addr) : outcome (Z * itable * reg) :=
  _ <- safe (alive r hn && alive r ha) ;;
  if bitlen v =? 0 then tb <- add_node (it_tbl t) (mknode id v) ;; Ok (0, mkit (it_group t) (it_rows t) tb, r) else
  p <- get r (Some hash_pool) ;;
  match p with
  | None => Ok (-1, t, r)
  | Some a =>
      let blen := Z.to_nat ((bitlen v - 1) mod 256) in
      row <- (match nth_error (it_rows t) blen with Some x => Ok x | None => UB end) ;;
      ' (h, r) <- (match row with
                   | Some h => Ok (h, r)
                   | None => ' (r, x) <- alloc_in r a ;; _ <- safe (room r a (SIZEOF_PTR * tsz (it_tbl t))) ;; Ok ((a, x), r)
                   end) ;;
      _ <- safe (alive r h) ;;
      tb <- add_node (it_tbl t) (mknode id v) ;;
      Ok (0, mkit (it_group t) (upd (it_rows t) blen (Some h)) tb, r)
  end.
(** following a pointer to node number k, and to its address *)
Definition touch (r : reg) (ps : places) (k : nat) : outcome unit := match nth_error ps k with Some (hn, ha) => safe (alive r hn && alive r ha) | None => UB end.
(* zt_ipv4_tbl.c:211-236 zt_ipv4_tbl_add_frm_str: the network of the node it answers *)
Definition iadd (r : reg) (ps : places) (t : itable) (net : option (Z * Z)) : outcome (option Ipv4Model.addr * itable * places * reg) :=
  match tany (it_tbl t) with
  | Some n => _ <- touch r ps (nid n) ;; Ok (Some (naddr n), t, ps, r)
  | None =>
      ' (y, r) <- inode r net ;;
      match y with
      | None => Ok (None, t, ps, r)
      | Some (hn, ha, v) =>
          ' (rc, t, r) <- iadd_node r t (length ps) hn ha v ;;
          Ok ((if rc =? 0 then Some v else None), t, ps ++ [(hn, ha)], r)
      end
  end.
(* zt_ipv4_tbl.c:279-285 *)
Fixpoint ifind (r : reg) (ps : places) (c : list Ipv4Model.node) (needle : Ipv4Model.addr) : outcome (option Ipv4Model.node) :=
  match c with [] => Ok None | m :: c => _ <- touch r ps (nid m) ;; if addr_cmp (naddr m) needle then Ok (Some m) else ifind r ps c needle end.
(* zt_ipv4_tbl.c:264-286; [l] is what is left of in[] *)
Fixpoint isearch_loop (r : reg) (ps : places) (t : itable) (l : list Z) (needle : Ipv4Model.addr) : outcome (option Ipv4Model.node) :=
  match l with
  | [] => UB
  | b :: l =>
      if b =? 0 then Ok None else
      m <- netmask b ;;
      let key := Z.to_nat (Z.land (Z.land (a_addr needle) m) (tsz (it_tbl t) - 1)) in
      _ <- (match nth_error (it_rows t) (Z.to_nat (b - 1)) with Some (Some h) => safe (alive r h) | _ => UB end) ;;
      row <- (match nth_error (rows (it_tbl t)) (Z.to_nat (b - 1)) with Some (Some c) => Ok c | _ => UB end) ;;
      chain <- (match nth_error row key with Some c => Ok c | None => UB end) ;;
      x <- ifind r ps chain needle ;;
      match x with Some n => Ok (Some n) | None => isearch_loop r ps t l needle end
  end.
(* zt_ipv4_tbl.c:253-289 zt_ipv4_tbl_search_node *)
Definition isearch_node (r : reg) (ps : places) (t : itable) (needle : Ipv4Model.addr) : outcome (option Ipv4Model.node) :=
  match tany (it_tbl t) with Some n => Ok (Some n) | None => isearch_loop r ps t (tin (it_tbl t)) needle end.
(* zt_ipv4_tbl.c:291-310 zt_ipv4_tbl_search_from_str: the node is given back, its address is not; the caller looks at the network of the node it gets *)
Definition isearch (r : reg) (ps : places) (t : itable) (net : option (Z * Z)) : outcome (option Ipv4Model.addr * reg) :=
  ' (y, r) <- inode r net ;;
  match y with
  | None => Ok (None, r)
  | Some (hn, ha, v) =>
      _ <- safe (alive r hn && alive r ha) ;;
      x <- isearch_node r ps t v ;;
      r <- release_in r (fst hn) (snd hn) ;;
      match x with None => Ok (None, r) | Some n => _ <- touch r ps (nid n) ;; Ok (Some (naddr n), r) end
  end.
