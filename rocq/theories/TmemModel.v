(** Model of the memory of tables: src/libzt/zt_table.c 63-259 on top of zt_mem.c.  A table is an element of the pool called zt.table.pool, its nodes are elements of a pool of its own.
    The chains are TableModel's, the pools RegModel's; a node is a TableModel node whose datum carries the pool element it lives in.  malloc succeeds, with the addresses given.
    Simplifications: the bucket array (zt_mem_heap, C60) and the copy of the name are not in the state. *)
From Verif Require Import Prelude HashModel TableModel MemModel RegModel.
Open Scope Z_scope.

(* zt_table.c:61 ZT_DEFAULT_TABLE_POOL *)
Definition table_pool : text := [122; 116; 46; 116; 97; 98; 108; 101; 46; 112; 111; 111; 108].
(* zt_table.c:48-60, 38-45: sizeof(zt_table), sizeof(struct table_node) (LP64) *)
Definition SIZEOF_TABLE : Z := 80.
Definition SIZEOF_NODE : Z := 48.
(* zt_table.c:130: snprintf of 1024 bytes; glibc prints (null) for NULL *)
Definition node_pool_name (n : option text) : text :=
  firstn 1023 ((match n with Some n => n | None => [40; 110; 117; 108; 108; 41] end) ++ [32; 40; 116; 97; 98; 108; 101; 32; 110; 111; 100; 101; 32; 112; 111; 111; 108; 41]).

(** zt_mem_pool_alloc and zt_mem_pool_release on a pool of the list *)
Definition alloc_in (r : reg) (a : nat) : outcome (reg * elt) :=
  match find (plist r) a with None => UB | Some e => ' (p, x) <- pool_alloc true (body e) ;; Ok (mkreg (put (plist r) a p) (hooks r), x) end.
Definition release_in (r : reg) (a : nat) (x : elt) : outcome reg :=
  match find (plist r) a with None => UB | Some e => p <- pool_release (body e) x ;; Ok (mkreg (put (plist r) a p) (hooks r)) end.
Definition room (r : reg) (a : nat) (n : Z) : bool := match find (plist r) a with None => false | Some e => n <=? elt_size (body e) end.

Section Tmem.
Variable K D : Type.
Variable hash : K -> Z.
Variable cmp : K -> K -> bool.
Notation tab := (table K (D * elt)).
(** the pool and element of the table itself, its node pool, its chains *)
Record mtable := mkmtable { m_home : nat; m_self : elt; m_pool : nat; m_tab : tab }.

(* zt_table.c:73-138 zt_table_init with callbacks; [a1]: the address malloc gives to the pool of tables if that has to be made, [a2]: to the node pool *)
Definition tinit (sys : Z) (r : reg) (a1 a2 : nat) (n : option text) (use_hint dup : bool) (hint : Z) : outcome (mtable * reg) :=
  x <- get r (Some table_pool) ;;
  ' (home, r) <- (match x with
                  | Some a => Ok (a, r)
                  | None => ' (y, r) <- init sys r a1 true true true (Some table_pool) 2 SIZEOF_TABLE None 0 ;; match y with Some a => Ok (a, r) | None => UB end
                  end) ;;
  ' (r, self) <- alloc_in r home ;;
  _ <- safe (room r home SIZEOF_TABLE) ;;
  let nb := num_buckets use_hint hint in
  ' (y, r) <- init sys r a2 true true true (Some (node_pool_name n)) nb SIZEOF_NODE None 0 ;;
  match y with Some a => Ok (mkmtable home self a (table_init K (D * elt) use_hint dup hint), r) | None => UB end.

(* zt_table.c:164-199 zt_table_set *)
Definition tset (r : reg) (t : mtable) (k : K) (d : D) : outcome (Z * mtable * reg) :=
  c <- chain_at K (D * elt) hash (m_tab t) k ;;
  match (if tdup (m_tab t) then None else find_node K (D * elt) hash cmp c k) with
  | Some _ => Ok (1, t, r)
  | None =>
      ' (r, x) <- alloc_in r (m_pool t) ;;
      _ <- safe (room r (m_pool t) SIZEOF_NODE) ;;
      ' (rc, tb) <- table_set K (D * elt) hash cmp (m_tab t) k (d, x) ;;
      Ok (rc, mkmtable (m_home t) (m_self t) (m_pool t) tb, r)
  end.
(* zt_table.c:227-259 zt_table_del *)
Definition tdel (r : reg) (t : mtable) (k : K) : outcome (option D * mtable * reg) :=
  ' (x, tb) <- table_del K (D * elt) hash cmp (m_tab t) k ;;
  match x with
  | None => Ok (None, t, r)
  | Some (d, x) => r <- release_in r (m_pool t) x ;; Ok (Some d, mkmtable (m_home t) (m_self t) (m_pool t) tb, r)
  end.
(* zt_table.c:140-162 zt_table_destroy: the nodes bucket by bucket, the node pool (whose answer is ignored), the table *)
Fixpoint release_all (r : reg) (a : nat) (l : list elt) : outcome reg := match l with [] => Ok r | x :: l => r <- release_in r a x ;; release_all r a l end.
Definition nodes (t : tab) : list elt := map (fun n => snd (ndatum n)) (all_nodes t).
Definition tdestroy (r : reg) (t : mtable) : outcome reg :=
  r <- release_all r (m_pool t) (nodes (m_tab t)) ;;
  ' (_, r) <- destroy r (m_pool t) ;;
  release_in r (m_home t) (m_self t).
End Tmem.
Arguments mkmtable {K D}. Arguments m_home {K D}. Arguments m_self {K D}. Arguments m_pool {K D}. Arguments m_tab {K D}. Arguments nodes {K D}.
Arguments tinit {K D}. Arguments tset {K D}. Arguments tdel {K D}. Arguments tdestroy {K D}.
