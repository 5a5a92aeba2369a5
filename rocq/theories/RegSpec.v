(** What a program that uses zt_mem's pools does, and what it can tell from the answers. *)
From Verif Require Import Prelude MemModel MemPool RegModel.
Open Scope Z_scope.

(** a program: create a pool ([a] is the address malloc gives if ms, any address that is not in use; NULL name: None), use a pool (allocate, release, trim), destroy a pool *)
Inductive rop := New (a : nat) (ms : bool) (n : option text) (elts size : Z) (cb : option (Z -> Z -> Z -> Z -> bool)) (fl : Z) | Use (a : nat) (os : list op) | Destroy (a : nat).
(** what it saw: zt_mem_pool_init returned a, or NULL; zt_mem_pool_destroy returned 0, or -1 *)
Inductive event := Created (a : nat) (n : text) | NotCreated | Destroyed (a : nat) | Refused (a : nat).
(** the pools that are there, oldest first *)
Definition after (l : list (nat * text)) (e : event) : list (nat * text) :=
  match e with
  | Created a n => l ++ [(a, n)]
  | Destroyed a => filter (fun x => negb (fst x =? a)%nat) l
  | _ => l
  end.
Definition living (log : list event) : list (nat * text) := fold_left after log [].
Fixpoint oldest (n : text) (l : list (nat * text)) : option nat :=
  match l with [] => None | (a, m) :: l => if list_eq_dec Z.eq_dec m n then Some a else oldest n l end.

(** the library's state, the elements of each pool the program holds, and what it saw *)
Record world := mkworld { w_reg : reg; w_held : nat -> list elt; w_log : list event }.
Definition world0 := mkworld reg0 (fun _ => []) [].
Definition held_now (f : nat -> list elt) (a : nat) (l : list elt) : nat -> list elt := fun b => if (b =? a)%nat then l else f b.
(** New at an address in use cannot happen, and a program does not use or destroy a pool that is not there: such steps are left out *)
Definition wstep (sys : Z) (w : world) (o : rop) : outcome world :=
  match o with
  | New a ms n elts size cb fl =>
      match find (plist (w_reg w)) a with
      | Some _ => Ok w
      | None =>
          ' (x, r) <- init sys (w_reg w) a ms true true n elts size cb fl ;;
          Ok (match x with
              | Some a => mkworld r (held_now (w_held w) a []) (w_log w ++ [Created a (match n with Some n => n | None => unknown end)])
              | None => mkworld r (w_held w) (w_log w ++ [NotCreated])
              end)
      end
  | Use a os =>
      match find (plist (w_reg w)) a with
      | None => Ok w
      | Some e => ' (p, l) <- MemPool.run (body e) (w_held w a) os ;; Ok (mkworld (mkreg (put (plist (w_reg w)) a p) (hooks (w_reg w))) (held_now (w_held w) a l) (w_log w))
      end
  | Destroy a =>
      match find (plist (w_reg w)) a with
      | None => Ok w
      | Some _ => ' (rc, r) <- destroy (w_reg w) a ;; Ok (mkworld r (w_held w) (w_log w ++ [if rc =? 0 then Destroyed a else Refused a]))
      end
  end.
Fixpoint wrun (sys : Z) (w : world) (os : list rop) : outcome world := match os with [] => Ok w | o :: os => w <- wstep sys w o ;; wrun sys w os end.
(** the page sizes fit in a size_t *)
Definition sizes (o : rop) : Prop :=
  match o with New _ _ _ elts size _ _ => 0 <= elts < 2 ^ 63 /\ 0 <= size /\ Z.max 1 elts * (24 + size) + 32 < 2 ^ 64 | _ => True end.
Definition is_new (o : rop) : bool := match o with New _ _ _ _ _ _ _ => true | _ => false end.
