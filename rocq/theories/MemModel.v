(** Model of src/libzt/zt_mem.c, zt_mem.h: pools and pool groups.
    An element is (page, slot).  The free list and the page list are sequences: they are zt_elist rings, whose add, add_tail and remove are the list operations
    used here (C24); an element is removed from the free list only while it is in it.  malloc returns pages with new identities; m = false says that it fails.
    Not modelled: names of the pools as memory, the display functions, zt_mem_heap, the unimplemented zt_mem_set, the element with a NULL page (zt_mem.c:297-301). *)
From Verif Require Import Prelude.
Open Scope Z_scope.

Definition u64 (x : Z) : Z := x mod 2 ^ 64.
(* zt_mem.c:27-31, 40-45: the sizes of the headers (LP64) *)
Definition ELT : Z := 24.
Definition PAGE : Z := 32.
Definition elt := (nat * nat)%type.
(* zt_mem.c:47-65 *)
Record pool := mkpool {
  rcache : Z; ncache : Z; pcache : Z; nfree : Z; npages : Z; epp : Z; elt_size : Z; page_size : Z; page_allocs : Z; page_frees : Z;
  test : Z -> Z -> Z -> Z -> bool; flags : Z;
  pages : list (nat * Z);     (* page_list with num_free_elts *)
  frees : list elt;           (* free_elt_list *)
  next_page : nat             (* the identity of the page malloc will return *)
}.
Definition set_lists (p : pool) (nf np pa pf : Z) (pg : list (nat * Z)) (fr : list elt) (nx : nat) : pool :=
  mkpool (rcache p) (ncache p) (pcache p) nf np (epp p) (elt_size p) (page_size p) pa pf (test p) (flags p) pg fr nx.

(* zt_mem.c:139-174 x_calculate_page_data: (page_size, epp, npages); sys is sysconf(_SC_PAGESIZE); elts is a ssize_t, the products are size_t *)
Definition calculate (sys elts size : Z) : outcome (Z * Z * Z) :=
  let usable := u64 (sys - PAGE) in
  if size <? usable / 2 then
    _ <- safe (negb (u64 (ELT + size) =? 0)) ;;
    let epp := usable / u64 (ELT + size) in
    if epp <? elts then _ <- safe (negb (epp =? 0)) ;; Ok (sys, epp, elts / epp) else Ok (sys, epp, 1)
  else Ok (u64 (u64 elts * u64 (ELT + size) + PAGE), u64 elts, 1).

(* zt_mem.c:702-743 zt_mem_page_alloc, and 269-270: the new page at the end of the page list; None: malloc returned NULL.
   The check: the header of every element, the last one in particular, is written inside the page *)
Definition page_alloc (m : bool) (p : pool) : outcome (option pool) :=
  if negb m then Ok None
  else
    let n := Z.max 1 (epp p) in
    _ <- safe (PAGE + (n - 1) * u64 (ELT + elt_size p) + ELT <=? page_size p) ;;
    let id := next_page p in
    Ok (Some (set_lists p (nfree p + 1) (npages p + 1) (page_allocs p) (page_frees p) (pages p ++ [(id, n)]) (frees p ++ map (pair id) (seq 0 (Z.to_nat n))) (S id))).
(* zt_mem.c:266-270, 243-245: &page->page_list of a NULL page is written through *)
Definition new_page (m : bool) (p : pool) : outcome pool :=
  r <- page_alloc m p ;;
  match r with None => UB | Some p => Ok (set_lists p (nfree p) (npages p) (page_allocs p + 1) (page_frees p) (pages p) (frees p) (next_page p)) end.
Fixpoint new_pages (m : bool) (n : nat) (p : pool) : outcome pool := match n with O => Ok p | S n => p <- new_page m p ;; new_pages m n p end.
(* zt_mem.c:176-251 zt_mem_pool_init (m: whether malloc succeeds for the pages) *)
Definition pool_init (sys : Z) (m : bool) (elts size : Z) (cb : option (Z -> Z -> Z -> Z -> bool)) (fl : Z) : outcome pool :=
  ' (ps, ep, np) <- calculate sys (if elts =? 0 then 1 else elts) size ;;
  pc <- (if 0 <? elts then
           if elts <? ep then Ok 1
           else _ <- safe (negb (ep =? 0)) ;; Ok (if 0 <? elts mod ep then elts / ep + 1 else elts / ep)
         else Ok np) ;;
  (* zt_mem.c:772-780 zt_default_release_test; POOL_NEVER_FREE is bit 0 *)
  let cb := match cb with Some f => f | None => fun _ _ _ f => negb (Z.odd f) end in
  new_pages m (Z.to_nat np) (mkpool (u64 elts) (u64 (pc * ep)) pc 0 0 ep size ps 0 0 cb fl [] [] 0%nat).

Fixpoint num_free (pg : list (nat * Z)) (id : nat) : option Z := match pg with [] => None | (i, n) :: r => if (i =? id)%nat then Some n else num_free r id end.
Definition set_free (pg : list (nat * Z)) (id : nat) (n : Z) : list (nat * Z) := map (fun e => if (fst e =? id)%nat then (fst e, n) else e) pg.
(* zt_mem.c:253-285 zt_mem_pool_alloc *)
Definition pool_alloc (m : bool) (p : pool) : outcome (pool * elt) :=
  p <- (match frees p with [] => new_page m p | _ => Ok p end) ;;
  match frees p with
  | [] => UB
  | e :: fr =>
      match num_free (pages p) (fst e) with
      | None => UB
      | Some n =>
          let n := n - 1 in
          Ok (set_lists p (if n =? epp p - 1 then nfree p - 1 else nfree p) (npages p) (page_allocs p) (page_frees p) (set_free (pages p) (fst e) n) fr (next_page p), e)
      end
  end.
(* zt_mem.c:670-700 zt_mem_page_destroy: removes the first num_free_elts elements of the page from the free list *)
Definition page_destroy (p : pool) (id : nat) : outcome pool :=
  match num_free (pages p) id with
  | None => UB
  | Some n =>
      if n <? epp p then Ok p
      else Ok (set_lists p (nfree p - 1) (npages p - 1) (page_allocs p) (page_frees p) (filter (fun e => negb (fst e =? id)%nat) (pages p))
                 (filter (fun e => negb ((fst e =? id)%nat && (Z.of_nat (snd e) <? n))) (frees p)) (next_page p))
  end.
(* zt_mem.c:287-325 zt_mem_pool_release *)
Definition pool_release (p : pool) (e : elt) : outcome pool :=
  match num_free (pages p) (fst e) with
  | None => UB
  | Some n =>
      let n := n + 1 in
      let p := set_lists p (if n =? epp p then nfree p + 1 else nfree p) (npages p) (page_allocs p) (page_frees p) (set_free (pages p) (fst e) n) (e :: frees p) (next_page p) in
      if n =? epp p then
        if test p (rcache p) (u64 (ncache p * nfree p)) (u64 (ncache p * (npages p - nfree p))) (flags p) then
          p <- page_destroy p (fst e) ;; Ok (set_lists p (nfree p) (npages p) (page_allocs p) (page_frees p + 1) (pages p) (frees p) (next_page p))
        else Ok p
      else Ok p
  end.
(* zt_mem.c:327-343 zt_mem_pool_release_free_pages *)
Fixpoint release_pages (ids : list nat) (p : pool) : outcome pool :=
  match ids with
  | [] => Ok p
  | id :: ids =>
      match num_free (pages p) id with
      | None => UB
      | Some n => p <- (if n =? epp p then page_destroy p id else Ok p) ;; release_pages ids p
      end
  end.
Definition release_free_pages (p : pool) : outcome pool := release_pages (map fst (pages p)) p.
(* zt_mem.c:346-373 zt_mem_pool_destroy: -1 and the pool stays, or 0 and the pool is gone (None) *)
Fixpoint destroy_pages (ids : list nat) (p : pool) : outcome (Z * option pool) :=
  match ids with
  | [] => Ok (0, None)
  | id :: ids =>
      match num_free (pages p) id with
      | None => UB
      | Some n => if n <? epp p then Ok (-1, Some p) else p <- page_destroy p id ;; destroy_pages ids p
      end
  end.
Definition pool_destroy (p : pool) : outcome (Z * option pool) := destroy_pages (map fst (pages p)) p.

(** where an element is, in bytes from the start of its page: [offset, offset + size) is the block zt_mem_pool_alloc returns *)
(* zt_mem.c:724, 734, 284 *)
Definition offset (p : pool) (e : elt) : Z := PAGE + Z.of_nat (snd e) * u64 (ELT + elt_size p) + ELT.

(** groups: the pools of a group, None is a NULL pointer *)
(* zt_mem.c:556-569 zt_mem_pool_group_init when no malloc fails: a descriptor without a name ends the loop, the rest of the calloc'd array stays NULL *)
Record desc := mkdesc { d_name : bool; d_elts : Z; d_size : Z; d_test : option (Z -> Z -> Z -> Z -> bool); d_flags : Z }.
Fixpoint group_init (sys : Z) (ds : list desc) : outcome (list (option pool)) :=
  match ds with
  | [] => Ok []
  | d :: r => if d_name d then p <- pool_init sys true (d_elts d) (d_size d) (d_test d) (d_flags d) ;; g <- group_init sys r ;; Ok (Some p :: g) else Ok (map (fun _ => None) ds)
  end.
(* zt_mem.c:574-591 zt_mem_pool_group_alloc: (index of the pool used, pool after, element); zt_assert(0) aborts *)
Fixpoint group_alloc (m : bool) (g : list (option pool)) (size : Z) : outcome (nat * pool * elt) :=
  match g with
  | [] => Abort
  | None :: _ => UB
  | Some p :: r => if size <=? elt_size p then ' (p, e) <- pool_alloc m p ;; Ok (0%nat, p, e) else ' (i, q, e) <- group_alloc m r size ;; Ok (S i, q, e)
  end.
