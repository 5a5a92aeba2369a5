(** Programs that use tables, and what the memory of a table should look like. *)
From Verif Require Import Prelude HashModel TableModel MemModel RegModel TmemModel TmemProofs.
Open Scope Z_scope.

Section Spec.
Variable K D : Type.
Variable hash : K -> Z.
Variable cmp : K -> K -> bool.
(** a program: tables are created (a1 and a2 are addresses malloc may give), filled, emptied and destroyed; i says which of the living tables *)
Inductive top := TNew (a1 a2 : nat) (n : option text) (use_hint dup : bool) (hint : Z) | TSet (i : nat) (k : K) (d : D) | TDel (i : nat) (k : K) | TFree (i : nat).
Record tworld := mktw { tw_reg : reg; tw_tabs : list (mtable K D) }.
Definition tworld0 := mktw reg0 [].
Definition live (r : reg) (a : nat) : bool := existsb (Nat.eqb a) (map addr (plist r)).
(** malloc does not give an address that is in use; a program does not use a table that is not there: such steps are left out *)
Definition tstep (sys : Z) (w : tworld) (o : top) : outcome tworld :=
  match o with
  | TNew a1 a2 n uh dup hint =>
      if live (tw_reg w) a1 || live (tw_reg w) a2 || (a1 =? a2)%nat then Ok w
      else ' (t, r) <- tinit sys (tw_reg w) a1 a2 n uh dup hint ;; Ok (mktw r (tw_tabs w ++ [t]))
  | TSet i k d => match nth_error (tw_tabs w) i with None => Ok w | Some t => ' (_, t, r) <- tset hash cmp (tw_reg w) t k d ;; Ok (mktw r (upd (tw_tabs w) i t)) end
  | TDel i k => match nth_error (tw_tabs w) i with None => Ok w | Some t => ' (_, t, r) <- tdel hash cmp (tw_reg w) t k ;; Ok (mktw r (upd (tw_tabs w) i t)) end
  | TFree i => match nth_error (tw_tabs w) i with None => Ok w | Some t => r <- tdestroy (tw_reg w) t ;; Ok (mktw r (firstn i (tw_tabs w) ++ skipn (S i) (tw_tabs w))) end
  end.
Fixpoint trun (sys : Z) (w : tworld) (os : list top) : outcome tworld := match os with [] => Ok w | o :: os => w <- tstep sys w o ;; trun sys w os end.
(** every hash value has a bucket (C19 says for which hints), and the bucket array fits in memory *)
Definition thint (o : top) : Prop :=
  match o with
  | TNew _ _ _ uh dup hint => 0 <= hint < 2 ^ 56 /\ forall k, (slot K (D * elt) hash (table_init K (D * elt) uh dup hint) k < length (tbuckets (table_init K (D * elt) uh dup hint)))%nat
  | _ => True
  end.
Definition treachable (sys : Z) (w : tworld) : Prop := exists os, Forall thint os /\ trun sys tworld0 os = Ok w.
(** where in its chain the first node with the key is *)
Fixpoint depth (c : list (node K (D * elt))) (k : K) : option nat :=
  match c with [] => None | n :: c => if hit K (D * elt) hash cmp n k then Some 0%nat else match depth c k with Some j => Some (S j) | None => None end end.
End Spec.
Arguments mktw {K D}. Arguments tw_reg {K D}. Arguments tw_tabs {K D}. Arguments tworld0 {K D}.
(** elements of the node pool in use that are not nodes of the table *)
Definition stray {K D} (r : reg) (t : mtable K D) (n : nat) : Prop := exists e, find (plist r) (m_pool t) = Some e /\ length (in_use (body e)) = (length (nodes (m_tab t)) + n)%nat.

Section Gentle.
Variable K D : Type.
Variable hash : K -> Z.
Variable cmp : K -> K -> bool.
(** a program none of whose deletions takes a key from behind the second place of its chain *)
Definition gentle_step (w : tworld K D) (o : top K D) : Prop :=
  match o with
  | TDel _ _ i k => forall t c j, nth_error (tw_tabs w) i = Some t -> chain_at K (D * elt) hash (m_tab t) k = Ok c -> depth K D hash cmp c k = Some j -> (j <= 1)%nat
  | _ => True
  end.
Fixpoint gentle (sys : Z) (w : tworld K D) (os : list (top K D)) : Prop :=
  match os with [] => True | o :: os => gentle_step w o /\ forall w', tstep K D hash cmp sys w o = Ok w' -> gentle sys w' os end.
End Gentle.
