(** Model of src/libzt/zt_mem.c: the list of all pools, pool groups as its users, heaps and the figures of a pool.
    A pool's address is what malloc returned, a number; [ms], [mn], [mp] say whether malloc succeeds for the pool's struct, for the copy of its name, for its pages.
    The list [plist] is the zt_elist ring [pools] (zt_mem.c:86), whose add_tail, remove and for_each are the list operations used here (C24).
    Names are the bytes before the NUL.  Not modelled: the text of the display functions (only the figures they print). *)
From Verif Require Import Prelude MemModel.
Open Scope Z_scope.

Definition text := list Z.
(* zt_mem.c:47-65: pool_list, name and the rest *)
Record entry := mkentry { addr : nat; name : option text; body : pool }.
(** the pools, oldest first; how often zt_mem_release has been handed to zt_atexit; [mem_atexit] is hooks <> 0 *)
Record reg := mkreg { plist : list entry; hooks : nat }.
Definition reg0 := mkreg [] 0.

(* zt_mem.c:653-667 zt_mem_strdup of name ? name : "*unknown*" (zt_mem.c:103, 219, 625); None: NULL *)
Definition unknown : text := [42; 117; 110; 107; 110; 111; 119; 110; 42].
Definition strdup_name (mn : bool) (n : option text) : option text := if mn then Some (match n with Some n => n | None => unknown end) else None.

(* zt_mem.c:176-251 zt_mem_pool_init *)
Definition init (sys : Z) (r : reg) (a : nat) (ms mn mp : bool) (n : option text) (elts size : Z) (cb : option (Z -> Z -> Z -> Z -> bool)) (fl : Z) : outcome (option nat * reg) :=
  _ <- calculate sys (if elts =? 0 then 1 else elts) size ;;
  let h := match hooks r with O => 1%nat | h => h end in
  if negb ms then Ok (None, mkreg (plist r) h)
  else p <- pool_init sys mp elts size cb fl ;; Ok (Some a, mkreg (plist r ++ [mkentry a (strdup_name mn n) p]) h).

Fixpoint find (l : list entry) (a : nat) : option entry := match l with [] => None | e :: l => if (addr e =? a)%nat then Some e else find l a end.
Definition put (l : list entry) (a : nat) (p : pool) : list entry := map (fun e => if (addr e =? a)%nat then mkentry (addr e) (name e) p else e) l.
Definition remove (l : list entry) (a : nat) : list entry := filter (fun e => negb (addr e =? a)%nat) l.
(* zt_mem.c:346-374 zt_mem_pool_destroy *)
Definition destroy (r : reg) (a : nat) : outcome (Z * reg) :=
  match find (plist r) a with
  | None => UB
  | Some e =>
      ' (rc, p) <- pool_destroy (body e) ;;
      match p with
      | Some p => Ok (rc, mkreg (put (plist r) a p) (hooks r))
      | None => Ok (rc, mkreg (remove (plist r) a) (hooks r))
      end
  end.
(* zt_mem.c:484-495 zt_mem_release *)
Fixpoint release_loop (l : list nat) (r : reg) : outcome reg :=
  match l with [] => Ok r | a :: l => ' (_, r) <- destroy r a ;; release_loop l r end.
Definition at_exit (r : reg) : outcome reg := if (hooks r =? 0)%nat then Ok r else release_loop (map addr (plist r)) r.

(** strncmp(a, b, n) == 0 for strings *)
Fixpoint strncmp_eq (n : nat) (a b : text) : bool :=
  match n with
  | O => true
  | S n => match a, b with
           | [], [] => true
           | x :: a, y :: b => (x =? y) && strncmp_eq n a b
           | _, _ => false
           end
  end.
(* zt_mem.c:513-538 zt_mem_pool_get; strlen(NULL) is undefined *)
Fixpoint get_loop (n : text) (l : list entry) : outcome (option nat) :=
  match l with
  | [] => Ok None
  | e :: l =>
      match name e with
      | None => UB
      | Some o => if (length o =? length n)%nat && strncmp_eq (length n) n o then Ok (Some (addr e)) else get_loop n l
      end
  end.
Definition get (r : reg) (n : option text) : outcome (option nat) := match n with None => Ok None | Some n => get_loop n (plist r) end.

(* zt_mem.h:69-82, zt_mem.c:376-397 zt_mem_pool_get_stats; ZT_FAIL is 0, ZT_PASS is 1 (zt_internal.h:105-106) *)
Record stats := mkstats { s_requested : Z; s_actual : Z; s_cached : Z; s_free_pages : Z; s_pages : Z; s_epp : Z; s_elt_size : Z; s_page_size : Z; s_allocs : Z; s_frees : Z; s_flags : Z }.
Definition get_stats (p : option pool) (dest : bool) : Z * option stats :=
  match p with
  | Some p => if dest then (1, Some (mkstats (rcache p) (ncache p) (pcache p) (nfree p) (npages p) (epp p) (elt_size p) (page_size p) (page_allocs p) (page_frees p) (flags p))) else (0, None)
  | None => (0, None)
  end.
(* zt_mem.c:399-448 zt_mem_pool_display: the figures total elts, free elts, pages in use, page usage, page memory *)
Definition shown (p : pool) : Z * Z * Z * Z * Z :=
  (u64 (epp p * npages p), fold_left (fun s pg => s + snd pg) (pages p) 0, u64 (npages p - nfree p), u64 (u64 (ELT + elt_size p) * epp p), u64 (page_size p * npages p)).

(** the pools of a group; None is a NULL pointer.  The group's own two blocks come from zt_calloc, which does not return NULL (C51) *)
Record gdesc := mkgdesc { g_name : option text; g_elts : Z; g_size : Z; g_test : option (Z -> Z -> Z -> Z -> bool); g_flags : Z }.
(* zt_mem.c:564-566: while (--i) zt_mem_pool_destroy(&ngroup->pools[i]); i is a size_t: from 0 it wraps, and pools[2^64 - 1] is not there *)
Fixpoint back_out (i : nat) (ps : list nat) (r : reg) : outcome reg :=
  match i with
  | O => UB
  | S i' => if (i' =? 0)%nat then Ok r else match nth_error ps i' with None => UB | Some a => ' (_, r) <- destroy r a ;; back_out i' ps r end
  end.
(* zt_mem.c:540-572 zt_mem_pool_group_init; [ms]: an address for the struct of each pool, or None when malloc fails; [done]: the pools so far *)
Fixpoint group_loop (sys : Z) (r : reg) (ds : list gdesc) (ms : list (option nat)) (done : list nat) : outcome (option (list (option nat)) * reg) :=
  match ds, ms with
  | d :: ds', m :: ms' =>
      match g_name d with
      | None => Ok (Some (map Some done ++ map (fun _ => None) ds), r)
      | Some _ =>
          ' (x, r) <- init sys r (match m with Some a => a | None => O end) (match m with Some _ => true | None => false end) true true (g_name d) (g_elts d) (g_size d) (g_test d) (g_flags d) ;;
          match x with
          | Some a => group_loop sys r ds' ms' (done ++ [a])
          | None => r <- back_out (length done) done r ;; Ok (None, r)
          end
      end
  | _, _ => Ok (Some (map Some done), r)
  end.
Definition group_init (sys : Z) (r : reg) (ds : list gdesc) (ms : list (option nat)) : outcome (option (list (option nat)) * reg) := group_loop sys r ds ms [].
(* zt_mem.c:593-612 zt_mem_pool_group_destroy: ( *pool)->page_list of a NULL pool is undefined *)
Fixpoint group_destroy (r : reg) (g : list (option nat)) (ret : Z) : outcome (Z * reg) :=
  match g with
  | [] => Ok (ret, r)
  | None :: _ => UB
  | Some a :: g => ' (rc, r) <- destroy r a ;; group_destroy r g (if rc =? 0 then ret else -1)
  end.

(** a heap: its name (None: the copy failed) and the size of the block behind it *)
Record mheap := mkmheap { h_name : option text; h_size : Z; h_block : Z }.
(* zt_mem.c:33-38: the header (LP64), the data follow it at once *)
Definition HEAP : Z := 16.
(* zt_mem.c:94-107 zt_mem_heap_init; h_block is the number of bytes asked of malloc *)
Definition heap_init (ms mn : bool) (n : option text) (size : Z) : option mheap := if negb ms then None else Some (mkmheap (strdup_name mn n) size (u64 (HEAP + size))).
(* zt_mem.c:109-122 zt_mem_heap_destroy: heap is NULL, points to NULL, or to a heap; the result is what *heap holds after *)
Definition heap_destroy (h : option (option mheap)) : outcome (option (option mheap)) := match h with None => Ok None | Some None => UB | Some (Some _) => Ok (Some None) end.
(* zt_mem.c:124-128 zt_mem_heap_get_data: the offset in the block *)
Definition heap_data (h : option mheap) : outcome Z := match h with None => UB | Some _ => Ok HEAP end.
(* zt_mem.c:130-137 zt_mem_heap_get_name *)
Definition heap_name (h : option mheap) : option text := match h with Some h => h_name h | None => None end.
