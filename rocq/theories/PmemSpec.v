(** Programs on pointer arrays and their members: in memory, and with arrays as lists of member numbers. *)
From Verif Require Import Prelude HeapModel PtrArrayModel PmemModel.
Local Open Scope Z_scope.

(** arrays and members are numbered in the order in which they are made *)
Inductive pop :=
| PNew (f : bool)                 (* an array; with free as its callback, or without *)
| PMake (t : Z)                   (* a member *)
| PAdd (i k : nat) | PDel (i k : nat)
| PGet (i : nat) (idx : Z)        (* and look at the member *)
| PMove (i : nat) (s d : Z)
| PCat (i j : nat)
| PFree (i : nat) (members : bool)
| PLook (k : nat) | PDrop (k : nat).   (* the program looks at a member, frees a member *)
Inductive pres := RDone | RCode (z : Z) | RTag (t : option Z).
Definition live {A} (l : list (option A)) (i : nat) : outcome A := match nth_error l i with Some (Some v) => Ok v | _ => UB end.

(** arrays: with callback or not, and the numbers of the members in order; members: alive, with its tag, or freed *)
Record vworld := mkvw { varr : list (option (bool * list nat)); vmem : list (option Z) }.
Definition vw0 := mkvw [] [].
(** going through l once, every k is replaced by the then last member, which is not looked at again; how many are removed *)
Fixpoint sweep (n : nat) (k : nat) (l : list nat) : list nat * nat :=
  match n with
  | O => (l, 0)
  | S n => match l with
           | [] => ([], 0)
           | x :: r => if Nat.eqb x k then match r with [] => ([], 1) | _ => let '(r', c) := sweep n k (removelast r) in (last r 0 :: r', S c) end
                       else let '(r', c) := sweep n k r in (x :: r', c)
           end
  end%nat.
Definition stored (arrs : list (option (bool * list nat))) (k : nat) : bool := existsb (fun o => match o with Some (_, l) => existsb (Nat.eqb k) l | None => false end) arrs.
Definition kill (ms : list (option Z)) (ks : list nat) : list (option Z) := fold_left (fun ms k => upd ms k None) ks ms.
Definition distinct (l : list nat) : bool := Nat.eqb (length (nodup Nat.eq_dec l)) (length l).
(** a member is to be freed once, when no array holds it any more *)
Definition vstep (w : vworld) (o : pop) : outcome (pres * vworld) :=
  match o with
  | PNew f => Ok (RDone, mkvw (varr w ++ [Some (f, [])]) (vmem w))
  | PMake t => Ok (RDone, mkvw (varr w) (vmem w ++ [Some t]))
  | PAdd i k =>
      ' (f, l) <- live (varr w) i ;; _ <- live (vmem w) k ;;
      _ <- safe (Z.of_nat (length l) + 32 <=? 2147483647) ;;
      Ok (RCode 0, mkvw (upd (varr w) i (Some (f, l ++ [k]))) (vmem w))
  | PDel i k =>
      ' (f, l) <- live (varr w) i ;; _ <- live (vmem w) k ;;
      let '(l', c) := sweep (length l) k l in
      let arrs := upd (varr w) i (Some (f, l')) in
      if f && (0 <? c)%nat then _ <- safe ((c =? 1)%nat && negb (stored arrs k)) ;; Ok (RCode (-1), mkvw arrs (upd (vmem w) k None))
      else Ok (RCode (-1), mkvw arrs (vmem w))
  | PGet i idx =>
      ' (f, l) <- live (varr w) i ;;
      if idx >=? Z.of_nat (length l) then Ok (RTag None, w) else
      _ <- safe ((0 <=? idx) || (idx =? -1) && (0 <? length l)%nat) ;;
      t <- live (vmem w) (if idx =? -1 then last l 0%nat else nth (Z.to_nat idx) l 0%nat) ;;
      Ok (RTag (Some t), w)
  | PMove i s d =>
      ' (f, l) <- live (varr w) i ;;
      if (s >? Z.of_nat (length l)) || (d >? Z.of_nat (length l)) then Ok (RCode (-1), w) else
      _ <- safe ((0 <=? s) && (s <? Z.of_nat (length l)) && (0 <=? d) && (d <? Z.of_nat (length l))) ;;
      Ok (RCode 0, mkvw (upd (varr w) i (Some (f, upd l (Z.to_nat d) (nth (Z.to_nat s) l 0%nat)))) (vmem w))
  | PCat i j =>
      ' (f, l) <- live (varr w) i ;; ' (_, l2) <- live (varr w) j ;;
      _ <- safe (negb (i =? j)%nat && (Z.of_nat (length l + length l2) + 32 <=? 2147483647)) ;;
      Ok (RCode 0, mkvw (upd (varr w) i (Some (f, l ++ l2))) (vmem w))
  | PFree i members =>
      ' (f, l) <- live (varr w) i ;;
      let arrs := upd (varr w) i None in
      if members then _ <- safe (distinct l && negb (existsb (stored arrs) l)) ;; Ok (RCode 0, mkvw arrs (kill (vmem w) l))
      else Ok (RCode 0, mkvw arrs (vmem w))
  | PLook k => t <- live (vmem w) k ;; Ok (RTag (Some t), w)
  | PDrop k => _ <- live (vmem w) k ;; _ <- safe (negb (stored (varr w) k)) ;; Ok (RDone, mkvw (varr w) (upd (vmem w) k None))
  end.
Fixpoint vrun (w : vworld) (os : list pop) : outcome (list pres * vworld) :=
  match os with [] => Ok ([], w) | o :: os => ' (r, w) <- vstep w o ;; ' (l, w) <- vrun w os ;; Ok (r :: l, w) end.

(** in memory: the addresses of the arrays, and of the members, also of those that were freed *)
Record pworld := mkpw { pm : pmem; parrs : list (option nat); pmems : list nat }.
Definition pw0 := mkpw (mkhp [] 0) [] [].
Definition member (w : pworld) (k : nat) : outcome nat := match nth_error (pmems w) k with Some p => Ok p | None => UB end.
Section P.
Variable pick : nat -> list nat -> nat.
Definition pstep (w : pworld) (o : pop) : outcome (pres * pworld) :=
  match o with
  | PNew f => let '(a, m) := m_init pick (pm w) f in Ok (RDone, mkpw m (parrs w ++ [Some a]) (pmems w))
  | PMake t => let '(p, m) := hnew pick (pm w) (PMem t) in Ok (RDone, mkpw m (parrs w) (pmems w ++ [p]))
  | PAdd i k => a <- live (parrs w) i ;; p <- member w k ;; ' (r, m) <- m_add pick (pm w) a (Z.of_nat p) ;; Ok (RCode r, mkpw m (parrs w) (pmems w))
  | PDel i k => a <- live (parrs w) i ;; p <- member w k ;; ' (r, m) <- m_del (pm w) a (Z.of_nat p) ;; Ok (RCode r, mkpw m (parrs w) (pmems w))
  | PGet i idx => a <- live (parrs w) i ;; v <- m_get (pm w) a idx ;; if v =? 0 then Ok (RTag None, w) else t <- rd_mem (pm w) (Z.to_nat v) ;; Ok (RTag (Some t), w)
  | PMove i s d => a <- live (parrs w) i ;; ' (r, m) <- m_move (pm w) a s d ;; Ok (RCode r, mkpw m (parrs w) (pmems w))
  | PCat i j => a <- live (parrs w) i ;; b <- live (parrs w) j ;; ' (r, m) <- m_cat pick (pm w) a b ;; Ok (RCode r, mkpw m (parrs w) (pmems w))
  | PFree i members => a <- live (parrs w) i ;; ' (r, m) <- m_free (pm w) a (if members then 1 else 0) ;; Ok (RCode r, mkpw m (upd (parrs w) i None) (pmems w))
  | PLook k => p <- member w k ;; t <- rd_mem (pm w) p ;; Ok (RTag (Some t), w)
  | PDrop k => p <- member w k ;; m <- hfree (pm w) p ;; Ok (RDone, mkpw m (parrs w) (pmems w))
  end.
Fixpoint prun (w : pworld) (os : list pop) : outcome (list pres * pworld) :=
  match os with [] => Ok ([], w) | o :: os => ' (r, w) <- pstep w o ;; ' (l, w) <- prun w os ;; Ok (r :: l, w) end.
End P.
