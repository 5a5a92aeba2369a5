(** Programs on address tables: as they run in the shared pools, and as if every table were a value of its own (Ipv4Model.v: C29), with a count of the elements taken and never given back. *)
From Verif Require Import Prelude MemModel RegModel TmemModel TmemProofs ImemModel.
From Verif Require Ipv4Model.
Import Ipv4Model (tbl, rows, tany, naddr, bitlen, tbl_init, add_net, search_net).
Open Scope Z_scope.

(** tables are numbered in the order of their creation; a network is what the text says, None if it cannot be read *)
Inductive iop := INew (size : Z) | IAdd (i : nat) (net : option (Z * Z)) | ISearch (i : nat) (net : option (Z * Z)) | IFree (i : nat).
Definition live {A} (l : list (option A)) (i : nat) : outcome A := match nth_error l i with Some (Some v) => Ok v | _ => UB end.

(** values: the tables, the number of nodes made, and how many rows, nodes and addresses have been taken from the pools and not given back *)
Record vworld := mkvw { vt : list (option tbl); vids : nat; n_rows : nat; n_nodes : nat; n_addrs : nat }.
Definition no_row (t : tbl) (b : Z) : nat := if b =? 0 then 0 else match nth_error (rows t) (Z.to_nat ((b - 1) mod 256)) with Some None => 1 | _ => 0 end.
Definition vstep (v : vworld) (o : iop) : outcome (option Ipv4Model.addr * vworld) :=
  match o with
  | INew size => Ok (None, mkvw (vt v ++ [Some (tbl_init size)]) (vids v) (n_rows v) (n_nodes v) (n_addrs v))
  | IAdd i net =>
      t <- live (vt v) i ;;
      match tany t with
      | Some n => Ok (Some (naddr n), v)
      | None =>
          match net with
          | None => Ok (None, mkvw (vt v) (vids v) (n_rows v) (S (n_nodes v)) (n_addrs v))
          | Some (ip, b) => ' (n, t') <- add_net t (vids v) ip b ;; Ok (Some (naddr n), mkvw (upd (vt v) i (Some t')) (S (vids v)) (n_rows v + no_row t b) (S (n_nodes v)) (S (n_addrs v)))
          end
      end
  | ISearch i net =>
      t <- live (vt v) i ;;
      match net with
      | None => Ok (None, mkvw (vt v) (vids v) (n_rows v) (S (n_nodes v)) (n_addrs v))
      | Some (ip, b) => x <- search_net t ip b ;; Ok (option_map naddr x, mkvw (vt v) (vids v) (n_rows v) (n_nodes v) (S (n_addrs v)))
      end
  | IFree i => t <- live (vt v) i ;; Ok (None, mkvw (upd (vt v) i None) (vids v) (n_rows v) (n_nodes v) (n_addrs v))
  end.
Fixpoint vrun (v : vworld) (os : list iop) : outcome (list (option Ipv4Model.addr) * vworld) :=
  match os with [] => Ok ([], v) | o :: os => ' (r, v) <- vstep v o ;; ' (l, v) <- vrun v os ;; Ok (r :: l, v) end.
Definition vw0 := mkvw [] 0 0 0 0.

(** in the pools.  [pick] is malloc's choice of an address for the struct of a pool, given those in use *)
Record iworld := mkiw { iw_reg : reg; iw_places : places; iw_tabs : list (option itable) }.
Definition iw0 := mkiw reg0 [] [].
Section M.
Variable pick : nat -> list nat -> nat.
Variable sys : Z.
Definition istep (w : iworld) (o : iop) : outcome (option Ipv4Model.addr * iworld) :=
  let r := iw_reg w in let ps := iw_places w in let k := length (iw_tabs w) in
  match o with
  | INew size =>
      let l := map addr (plist r) in let a1 := pick k l in let a2 := pick k (a1 :: l) in let a3 := pick k (a2 :: a1 :: l) in
      ' (t, r) <- iinit sys r a1 a2 a3 size ;; Ok (None, mkiw r ps (iw_tabs w ++ [t]))
  | IAdd i net => t <- live (iw_tabs w) i ;; ' (x, t, ps, r) <- iadd r ps t net ;; Ok (x, mkiw r ps (upd (iw_tabs w) i (Some t)))
  | ISearch i net => t <- live (iw_tabs w) i ;; ' (x, r) <- isearch r ps t net ;; Ok (x, mkiw r ps (iw_tabs w))
  | IFree i => t <- live (iw_tabs w) i ;; r <- idestroy r t ;; Ok (None, mkiw r ps (upd (iw_tabs w) i None))
  end.
Fixpoint irun (w : iworld) (os : list iop) : outcome (list (option Ipv4Model.addr) * iworld) :=
  match os with [] => Ok ([], w) | o :: os => ' (r, w) <- istep w o ;; ' (l, w) <- irun w os ;; Ok (r :: l, w) end.
End M.

(** the number of slots a table made with [size] has *)
Definition slots_of (o : iop) : list Z := match o with INew size => [if size =? 0 then 128 else size] | _ => [] end.
Definition u32 (o : iop) : Prop := match o with INew size => 0 <= size < 2 ^ 32 | _ => True end.
(** no table is larger than one made before it *)
Definition descending (os : list iop) : Prop := forall l1 x l2 y l3, flat_map slots_of os = l1 ++ x :: l2 ++ y :: l3 -> y <= x.
(** elements in use in all the pools of a name *)
Definition called (n : text) (e : entry) : bool := match name e with Some m => if list_eq_dec Z.eq_dec m n then true else false | None => false end.
Definition used (r : reg) (n : text) : nat := fold_right (fun e k => ((if called n e then length (in_use (body e)) else 0) + k)%nat) 0%nat (plist r).
