(** Model of src/libzt/zt_ipv4_tbl.c.  uint32_t values are Z in [0, 2^32).  A node is its identity (the allocation) and its
    address; the chains linked through node->next are lists.  Simplifications: nodes handed to add_node are freshly made ones
    (zt_ipv4_node_str_init), allocation succeeds, the pools (MemModel.v) are not part of this model, inet_addr (libc) is a
    parameter. *)
From Verif Require Import Prelude.
Open Scope Z_scope.

Definition ALL : Z := 4294967295.
(* zt_ipv4_tbl.c:7-15 netmask_tbl *)
Definition netmask_tbl : list Z :=
  [0x00000000; 0x80000000; 0xC0000000; 0xE0000000; 0xF0000000;
   0xF8000000; 0xFC000000; 0xFE000000; 0xFF000000; 0xFF800000;
   0xFFC00000; 0xFFE00000; 0xFFF00000; 0xFFF80000; 0xFFFC0000;
   0xFFFE0000; 0xFFFF0000; 0xFFFF8000; 0xFFFFC000; 0xFFFFE000;
   0xFFFFF000; 0xFFFFF800; 0xFFFFFC00; 0xFFFFFE00; 0xFFFFFF00;
   0xFFFFFF80; 0xFFFFFFC0; 0xFFFFFFE0; 0xFFFFFFF0; 0xFFFFFFF8;
   0xFFFFFFFC; 0xFFFFFFFE; 0xFFFFFFFF].
(* netmask_tbl[i], UB outside the array *)
Definition netmask (i : Z) : outcome Z :=
  if i <? 0 then UB else match nth_error netmask_tbl (Z.to_nat i) with Some m => Ok m | None => UB end.

(* zt_ipv4_tbl.h:10-15 struct zt_ipv4_addr *)
Record addr := mkaddr { bitlen : Z; a_addr : Z; a_mask : Z; a_bcast : Z }.
(* zt_ipv4_tbl.h:17-20 struct zt_ipv4_node *)
Record node := mknode { nid : nat; naddr : addr }.
(* zt_ipv4_tbl.h:22-28 struct zt_ipv4_tbl *)
Record tbl := mktbl { rows : list (option (list (list node))); tin : list Z; tsz : Z; tany : option node }.

(* zt_ipv4_tbl.c:89-93 in zt_ipv4_addr_frm_str: the address record of ipaddr/bitlen *)
Definition make_addr (ip b : Z) : outcome addr :=
  m <- netmask b ;;
  let a := Z.land ip m in
  Ok (mkaddr b a m (Z.lor a (Z.land ALL (Z.lnot m)))).

(* zt_ipv4_tbl.c:31-62 zt_ipv4_tbl_init *)
Definition tbl_init (size : Z) : tbl :=
  mktbl (repeat None 32) (repeat 0 32) (if size =? 0 then 128 else size) None.

(* zt_ipv4_tbl.c:189-198 : position of the first free or equal entry of in[], and whether it is equal *)
Fixpoint find_in (l : list Z) (b : Z) (i : nat) : nat * bool :=
  match l with
  | [] => (i, false)
  | x :: r => if x =? 0 then (i, false) else if x =? b then (i, true) else find_in r b (S i)
  end.

(* zt_ipv4_tbl.c:127-209 zt_ipv4_tbl_add_node *)
Definition add_node (t : tbl) (n : node) : outcome tbl :=
  let b := bitlen (naddr n) in
  if b =? 0 then Ok (mktbl (rows t) (tin t) (tsz t) (Some n)) else
  let blen := (b - 1) mod 256 in
  row <- (match nth_error (rows t) (Z.to_nat blen) with Some r => Ok r | None => UB end) ;;
  let chains := match row with Some c => c | None => repeat [] (Z.to_nat (tsz t)) end in
  let key := Z.to_nat (Z.land (a_addr (naddr n)) (tsz t - 1)) in
  slot <- (match nth_error chains key with Some c => Ok c | None => UB end) ;;
  let rows' := upd (rows t) (Z.to_nat blen) (Some (upd chains key (n :: slot))) in
  let '(i, is_in) := find_in (tin t) b 0 in
  if is_in then Ok (mktbl rows' (tin t) (tsz t) (tany t))
  else if Nat.ltb i (length (tin t)) then Ok (mktbl rows' (upd (tin t) i b) (tsz t) (tany t)) else UB.

(* zt_ipv4_tbl.c:211-236 zt_ipv4_tbl_add_frm_str, netstr being ip/b; id is the new node's identity *)
Definition add_net (t : tbl) (id : nat) (ip b : Z) : outcome (node * tbl) :=
  match tany t with
  | Some n => Ok (n, t)
  | None => a <- make_addr ip b ;; t' <- add_node t (mknode id a) ;; Ok (mknode id a, t')
  end.

(* zt_ipv4_tbl.c:238-251 ipv4_tbl_addr_cmp *)
Definition addr_cmp (hay needle : addr) : bool := (a_addr needle >=? a_addr hay) && (a_bcast needle <=? a_bcast hay).

(* zt_ipv4_tbl.c:279-285 *)
Fixpoint find_match (c : list node) (needle : addr) : option node :=
  match c with [] => None | m :: r => if addr_cmp (naddr m) needle then Some m else find_match r needle end.

(* zt_ipv4_tbl.c:264-286; [l] is what is left of in[] *)
Fixpoint search_loop (t : tbl) (l : list Z) (needle : addr) : outcome (option node) :=
  match l with
  | [] => UB                                   (* in[32] *)
  | b :: r =>
      if b =? 0 then Ok None else
      m <- netmask b ;;
      let key := Z.to_nat (Z.land (Z.land (a_addr needle) m) (tsz t - 1)) in
      row <- (match nth_error (rows t) (Z.to_nat (b - 1)) with Some (Some c) => Ok c | _ => UB end) ;;
      chain <- (match nth_error row key with Some c => Ok c | None => UB end) ;;
      match find_match chain needle with
      | Some n => Ok (Some n)
      | None => search_loop t r needle
      end
  end.
(* zt_ipv4_tbl.c:253-289 zt_ipv4_tbl_search_node *)
Definition search_node (t : tbl) (needle : addr) : outcome (option node) :=
  match tany t with Some n => Ok (Some n) | None => search_loop t (tin t) needle end.
(* zt_ipv4_tbl.c:291-310 zt_ipv4_tbl_search_from_str, netstr being ip/b *)
Definition search_net (t : tbl) (ip b : Z) : outcome (option node) := a <- make_addr ip b ;; search_node t a.

(** parsing.  A string is the list of bytes from the pointer on. *)
Definition MAXLINE : nat := 16.
(* strchr(str, '/') up to the NUL *)
Fixpoint slash (s : list Z) (i : nat) : outcome (option nat) :=
  match s with [] => UB | c :: r => if c =? 47 then Ok (Some i) else if c =? 0 then Ok None else slash r (S i) end.
(* atoi: white space, sign, digits; overflow is undefined *)
Fixpoint digits (s : list Z) (acc : Z) : outcome Z :=
  match s with [] => UB | c :: r => if (48 <=? c) && (c <=? 57) then let v := acc * 10 + (c - 48) in if v >? 2147483648 then UB else digits r v else Ok acc end.
Definition isspace (c : Z) : bool := (c =? 32) || ((9 <=? c) && (c <=? 13)).
Fixpoint atoi (s : list Z) : outcome Z :=
  match s with
  | [] => UB
  | c :: r => if isspace c then atoi r
              else if c =? 45 then v <- digits r 0 ;; Ok (- v)
              else if c =? 43 then v <- digits r 0 ;; (if v =? 2147483648 then UB else Ok v)
              else v <- digits s 0 ;; (if v =? 2147483648 then UB else Ok v)
  end.
(* memcpy(save, str, n) into the zeroed 16-byte save; reading past the object str points into is undefined *)
Definition copy_save (s : list Z) (n : nat) : outcome (list Z) :=
  if Nat.ltb (length s) n then UB else Ok (firstn n s ++ repeat 0 (MAXLINE - n)).
Section Parse.
Variable inet_addr_h : list Z -> Z.   (* ntohl(inet_addr(save)); save is the zero-padded copy *)
(* zt_ipv4_tbl.c:332-379 zt_ipv4_str2net: (-1 = None) *)
Definition str2net (str : list Z) : outcome (option (Z * Z)) :=
  cp <- slash str 0 ;;
  match cp with
  | Some p =>
      b <- atoi (skipn (S p) str) ;;
      if Nat.ltb (MAXLINE - 1) p then Ok None else
      save <- copy_save str p ;;
      Ok (Some (inet_addr_h save, if b >? 32 then 32 else b))
  | None =>
      save <- copy_save str MAXLINE ;;
      (* inet_addr needs a terminated string: save[15] must be 0 or an earlier NUL present *)
      if existsb (Z.eqb 0) save then Ok (Some (inet_addr_h save, 32)) else UB
  end.
End Parse.
