(** Programs on configurations: in memory, and as if every configuration were a value of its own (CfgModel.v: C35), with a count of the blocks that are lost. *)
From Verif Require Import Prelude AmemModel OptsModel CfgModel CfgSpec CmemModel.
Local Open Scope Z_scope.

(** configurations, and the strings handed out, are numbered in the order in which they appear.  CPeek looks at a string handed out earlier. *)
Inductive cop := CLoad (name : text) (f : option text) | CSet (i : nat) (b v : text) (a : arg) | CGet (i : nat) (b v : text) (t : ty) | CPeek (k : nat) | CClose (i : nat).
Inductive cres := RLoad (ok : bool) | RSet (rc : Z) | RGet (rc : Z) (e : option entry) | RText (t : text) | RDone.
Definition live {A} (l : list (option A)) (i : nat) : outcome A := match nth_error l i with Some (Some v) => Ok v | _ => UB end.

(** values; the strings handed out, with the configuration they came from; the number of blocks nobody will free *)
Record vworld := mkvw { vcfg : list (option store); vhand : list (nat * text); vlost : nat }.
(** a string that is overwritten is lost *)
Definition dropped (st : store) (b v : text) : nat := match lookup st b v with Some (EString _) => 1 | _ => 0 end.
(** the blocks of a configuration: two for each block and each variable, one more for a string *)
Definition vcells (vs : list (text * entry)) : nat := list_sum (map (fun x => match snd x with EString _ => 3 | _ => 2 end%nat) vs).
Definition scells (st : store) : nat := list_sum (map (fun b => 2 + vcells (snd b))%nat st).
Section V.
Variable isfloat : text -> bool.
Variable fuel : nat.
(** CfgModel.parse_from with the number of lost strings and the block name the parser was at *)
Fixpoint vparse (n : nat) (f : text) (blk : option text) (st : store) (k : nat) {struct n} : outcome (Z * store * nat * option text) :=
  match f with
  | [] => Ok (0, st, k, None)
  | c :: r =>
      match n with
      | O => Loop
      | S n =>
          if c =? 10 then vparse n r blk st k
          else if c =? 91 then let '(x, r1) := read_block r 0 in vparse n (discard_line r1) (match x with Some x => Some (cut0 x) | None => None end) st k
          else if (c =? 59) || (c =? 35) then vparse n (discard_line r) blk st k
          else if isblank c then vparse n (discard_blank r) blk st k
          else
            ' (kv, r1) <- parse_line f ;;
            match kv with
            | None => Ok (-1, st, k, blk)
            | Some (var, val) => match blk with None => UB | Some b => vparse n r1 blk (insert isfloat st b var val) (k + dropped st b var) end
            end
      end
  end.
Definition vstep (w : vworld) (o : cop) : outcome (cres * vworld) :=
  match o with
  | CLoad _ None => Ok (RLoad false, mkvw (vcfg w ++ [None]) (vhand w) (vlost w))
  | CLoad _ (Some f) =>
      ' (rc, st, k, blk) <- vparse (S (length f)) f (Some global) [] 0 ;;
      if rc <? 0 then Ok (RLoad false, mkvw (vcfg w ++ [None]) (vhand w) (vlost w + (k + scells st + match blk with Some _ => 1 | None => 0 end)))
      else Ok (RLoad true, mkvw (vcfg w ++ [Some st]) (vhand w) (vlost w + k))
  | CSet i b v a =>
      st <- live (vcfg w) i ;;
      let '(rc, st') := set isfloat st b v a in
      Ok (RSet rc, mkvw (upd (vcfg w) i (Some st')) (vhand w) (vlost w + if rc <? 0 then 3 else dropped st b v))
  | CGet i b v t =>
      st <- live (vcfg w) i ;;
      ' (rc, e) <- get fuel st b v t ;;
      Ok (RGet rc e, mkvw (vcfg w) (match e with Some (EString s) => vhand w ++ [(i, s)] | _ => vhand w end) (vlost w))
  | CPeek k => match nth_error (vhand w) k with Some (i, s) => _ <- live (vcfg w) i ;; Ok (RText s, w) | None => UB end
  | CClose i => _ <- live (vcfg w) i ;; Ok (RDone, mkvw (upd (vcfg w) i None) (vhand w) (vlost w))
  end.
Fixpoint vrun (w : vworld) (os : list cop) : outcome (list cres * vworld) :=
  match os with [] => Ok ([], w) | o :: os => ' (r, w) <- vstep w o ;; ' (l, w) <- vrun w os ;; Ok (r :: l, w) end.
Definition vw0 := mkvw [] [] 0.

(** in memory; hand: the pointers handed out *)
Record cworld := mkcw { cm : cmem; ccfg : list (option nat); chand : list nat }.
Definition cw0 := mkcw (mkcm [] 0) [] [].
Variable pick : nat -> list nat -> nat.
Definition cstep (w : cworld) (o : cop) : outcome (cres * cworld) :=
  match o with
  | CLoad name f => ' (c, m) <- m_ini pick isfloat (cm w) name f ;; Ok (RLoad (match c with Some _ => true | None => false end), mkcw m (ccfg w ++ [c]) (chand w))
  | CSet i b v a => c <- live (ccfg w) i ;; ' (rc, m) <- m_set pick isfloat (cm w) c b v a ;; Ok (RSet rc, mkcw m (ccfg w) (chand w))
  | CGet i b v t =>
      c <- live (ccfg w) i ;;
      ' (rc, e) <- m_get fuel (cm w) c b v t ;;
      match e with
      | None => Ok (RGet rc None, w)
      | Some (VBool z) => Ok (RGet rc (Some (EBool z)), w)
      | Some (VInt z) => Ok (RGet rc (Some (EInt z)), w)
      | Some (VFloat z) => Ok (RGet rc (Some (EFloat z)), w)
      | Some (VRef _) => UB
      | Some (VStr p) => s <- rd_str (cm w) p ;; Ok (RGet rc (Some (EString s)), mkcw (cm w) (ccfg w) (chand w ++ [p]))
      end
  | CPeek k => match nth_error (chand w) k with Some p => s <- rd_str (cm w) p ;; Ok (RText s, w) | None => UB end
  | CClose i => c <- live (ccfg w) i ;; m <- m_close (cm w) c ;; Ok (RDone, mkcw m (upd (ccfg w) i None) (chand w))
  end.
Fixpoint crun (w : cworld) (os : list cop) : outcome (list cres * cworld) :=
  match os with [] => Ok ([], w) | o :: os => ' (r, w) <- cstep w o ;; ' (l, w) <- crun w os ;; Ok (r :: l, w) end.
End V.
