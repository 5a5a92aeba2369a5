(** zt_ipv4_tbl_add_node and zt_ipv4_tbl_search_node on nodes in memory: a node is a block with an address record and the pointer next, which the program may add
    to several tables or twice to one.  (Ipv4Model.v has the chains as lists.)  The memory maps a block to its next (None is NULL) and its address record;
    following a chain takes fuel, running out of it is Loop.  Allocation succeeds; the pools are in ImemModel.v. *)
From Verif Require Import Prelude Ipv4Model.
Local Open Scope Z_scope.

(* zt_ipv4_tbl.h:17-20 *)
Definition memory := nat -> option (option nat * addr).
Definition set_next (h : memory) (n s : nat) (a : addr) : memory := fun m => if Nat.eqb m n then Some (Some s, a) else h m.
(* zt_ipv4_tbl.h:22-28 struct zt_ipv4_tbl; the members of a row are the heads of its chains *)
Record ptbl := mkptbl { prows : list (option (list (option nat))); pin : list Z; psz : Z; pany : option nat }.
(* zt_ipv4_tbl.c:31-62 zt_ipv4_tbl_init *)
Definition p_init (size : Z) : ptbl := mkptbl (repeat None 32) (repeat 0 32) (if size =? 0 then 128 else size) None.
(* zt_ipv4_tbl.c:127-209 zt_ipv4_tbl_add_node; node->next is written only if the slot is not empty (169-173) *)
Definition p_add (h : memory) (t : ptbl) (n : nat) : outcome (memory * ptbl) :=
  match h n with
  | None => UB
  | Some (_, a) =>
      let b := bitlen a in
      if b =? 0 then Ok (h, mkptbl (prows t) (pin t) (psz t) (Some n)) else
      let blen := (b - 1) mod 256 in
      row <- (match nth_error (prows t) (Z.to_nat blen) with Some r => Ok r | None => UB end) ;;
      let heads := match row with Some c => c | None => repeat None (Z.to_nat (psz t)) end in
      let key := Z.to_nat (Z.land (a_addr a) (psz t - 1)) in
      slot <- (match nth_error heads key with Some c => Ok c | None => UB end) ;;
      let h' := match slot with Some s => set_next h n s a | None => h end in
      let rows' := upd (prows t) (Z.to_nat blen) (Some (upd heads key (Some n))) in
      let '(i, is_in) := find_in (pin t) b 0 in
      if is_in then Ok (h', mkptbl rows' (pin t) (psz t) (pany t))
      else if Nat.ltb i (length (pin t)) then Ok (h', mkptbl rows' (upd (pin t) i b) (psz t) (pany t)) else UB
  end.
(* zt_ipv4_tbl.c:279-285 *)
Fixpoint p_match (fuel : nat) (h : memory) (p : option nat) (needle : addr) {struct fuel} : outcome (option nat) :=
  match fuel with
  | O => Loop
  | S fuel =>
      match p with
      | None => Ok None
      | Some m => match h m with None => UB | Some (nx, a) => if addr_cmp a needle then Ok (Some m) else p_match fuel h nx needle end
      end
  end.
(* zt_ipv4_tbl.c:264-286; [l] is what is left of in[] *)
Fixpoint p_loop (fuel : nat) (h : memory) (t : ptbl) (l : list Z) (needle : addr) {struct l} : outcome (option nat) :=
  match l with
  | [] => UB
  | b :: r =>
      if b =? 0 then Ok None else
      m <- netmask b ;;
      let key := Z.to_nat (Z.land (Z.land (a_addr needle) m) (psz t - 1)) in
      row <- (match nth_error (prows t) (Z.to_nat (b - 1)) with Some (Some c) => Ok c | _ => UB end) ;;
      head <- (match nth_error row key with Some c => Ok c | None => UB end) ;;
      found <- p_match fuel h head needle ;;
      match found with Some n => Ok (Some n) | None => p_loop fuel h t r needle end
  end.
(* zt_ipv4_tbl.c:253-289 zt_ipv4_tbl_search_node; the needle is a node too, of which only the address is read *)
Definition p_search (fuel : nat) (h : memory) (t : ptbl) (needle : nat) : outcome (option nat) :=
  match pany t with Some n => Ok (Some n) | None => match h needle with None => UB | Some (_, a) => p_loop fuel h t (pin t) a end end.

(* a program with any number of tables *)
Inductive call := Add (i n : nat) | Search (i n : nat).
Definition do_call (fuel : nat) (h : memory) (ts : list ptbl) (c : call) : outcome (memory * list ptbl * option nat) :=
  match c with
  | Add i n => match nth_error ts i with None => UB | Some t => ' (h, t) <- p_add h t n ;; Ok (h, upd ts i t, None) end
  | Search i n => match nth_error ts i with None => UB | Some t => r <- p_search fuel h t n ;; Ok (h, ts, r) end
  end.
Fixpoint do_calls (fuel : nat) (h : memory) (ts : list ptbl) (cs : list call) {struct cs} : outcome (list (option nat)) :=
  match cs with
  | [] => Ok []
  | c :: cs => ' (h, ts, r) <- do_call fuel h ts c ;; rs <- do_calls fuel h ts cs ;; Ok (r :: rs)
  end.
