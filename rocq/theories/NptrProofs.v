(** nodes of IPv4 tables in memory: proofs *)
From Verif Require Import Prelude Bits Ipv4Model NptrModel.
Local Open Scope Z_scope.

(** the specification: the same program on the tables of Ipv4Model.v; [A] gives the address record of a node *)
Definition spec_call (A : nat -> addr) (ts : list tbl) (c : call) : outcome (list tbl * option nat) :=
  match c with
  | Add i n => match nth_error ts i with None => UB | Some t => t <- add_node t (mknode n (A n)) ;; Ok (upd ts i t, None) end
  | Search i n => match nth_error ts i with None => UB | Some t => r <- search_node t (A n) ;; Ok (ts, option_map nid r) end
  end.
Fixpoint spec_calls (A : nat -> addr) (ts : list tbl) (cs : list call) {struct cs} : outcome (list (option nat)) :=
  match cs with
  | [] => Ok []
  | c :: cs => ' (ts, r) <- spec_call A ts c ;; rs <- spec_calls A ts cs ;; Ok (r :: rs)
  end.
(** the nodes added, in order *)
Fixpoint added (cs : list call) : list nat := match cs with [] => [] | Add _ n :: cs => n :: added cs | Search _ _ :: cs => added cs end.
(** the nodes named *)
Fixpoint named (cs : list call) : list nat := match cs with [] => [] | (Add _ n | Search _ n) :: cs => n :: named cs end.

(** the chain c starts at p *)
Fixpoint chain (h : memory) (U : list nat) (p : option nat) (c : list node) {struct c} : Prop :=
  match c with
  | [] => p = None
  | m :: r => p = Some (nid m) /\ In (nid m) U /\ exists nx, h (nid m) = Some (nx, naddr m) /\ chain h U nx r
  end.
Definition row_rel h U (p : option (list (option nat))) (r : option (list (list node))) : Prop :=
  match p, r with None, None => True | Some ps, Some cs => Forall2 (chain h U) ps cs | _, _ => False end.
Definition rel h U (pt : ptbl) (t : tbl) : Prop :=
  Forall2 (row_rel h U) (prows pt) (rows t) /\ pin pt = tin t /\ psz pt = tsz t /\ pany pt = option_map nid (tany t).

Lemma F2_impl {A B} (P Q : A -> B -> Prop) (l : list A) (m : list B) : (forall a b, P a b -> Q a b) -> Forall2 P l m -> Forall2 Q l m.
Proof. intros K. induction 1; constructor; auto. Qed.
Lemma F2_nth {A B} (P : A -> B -> Prop) l m i : Forall2 P l m -> match nth_error l i, nth_error m i with Some a, Some b => P a b | None, None => True | _, _ => False end.
Proof. intros F. revert i. induction F as [|a b l m R F IH]; intros [|i]; cbn [nth_error]; auto. apply IH. Qed.
Lemma F2_upd {A B} (P : A -> B -> Prop) l m i a b : Forall2 P l m -> P a b -> Forall2 P (upd l i a) (upd m i b).
Proof. intros F K. revert i. induction F as [|x y l m R F IH]; intros [|i]; cbn [upd]; constructor; auto. Qed.
Lemma F2_repeat {A B} (P : A -> B -> Prop) a b n : P a b -> Forall2 P (repeat a n) (repeat b n).
Proof. intros K. induction n; cbn [repeat]; constructor; auto. Qed.

(** memory that agrees on U has the same chains *)
Lemma chain_frame h h' U U' : (forall n, In n U -> h' n = h n) -> incl U U' -> forall c p, chain h U p c -> chain h' U' p c.
Proof.
  intros K I. induction c as [|m c IH]; intros p C; cbn [chain] in *; [exact C|]. destruct C as (EP & IU & nx & EH & C). split; [exact EP|]. split; [now apply I|]. exists nx. rewrite (K _ IU). split; [exact EH|now apply IH].
Qed.
Lemma row_frame h h' U U' p r : (forall n, In n U -> h' n = h n) -> incl U U' -> row_rel h U p r -> row_rel h' U' p r.
Proof. intros K I. destruct p, r; cbn [row_rel]; auto. apply F2_impl. intros a b. now apply chain_frame. Qed.
Lemma rel_frame h h' U U' pt t : (forall n, In n U -> h' n = h n) -> incl U U' -> rel h U pt t -> rel h' U' pt t.
Proof. intros K I (R1 & R2). split; [|exact R2]. revert R1. apply F2_impl. intros a b. now apply row_frame. Qed.

Lemma add_ok h U pt t n nx a t' : rel h U pt t -> h n = Some (nx, a) -> nx = None -> ~ In n U -> add_node t (mknode n a) = Ok t' ->
  exists h' pt', p_add h pt n = Ok (h', pt') /\ rel h' (n :: U) pt' t' /\ (forall m, m <> n -> h' m = h m) /\ (forall m, option_map snd (h' m) = option_map snd (h m)).
Proof.
  intros (RR & EI & ES & EA) EH -> NU. unfold p_add, add_node. rewrite EH. cbv zeta. cbn [naddr]. destruct (bitlen a =? 0).
  { intros K. injection K as <-. exists h. eexists. split; [reflexivity|]. split; [|auto]. split; [|cbn; auto]. cbn [prows rows]. revert RR. apply F2_impl. intros u v. apply row_frame; [auto|]. intros m J. now right. }
  rewrite ES, EI. pose proof (F2_nth _ _ _ (Z.to_nat ((bitlen a - 1) mod 256)) RR) as RW.
  destruct (nth_error (prows pt) _) as [pr|]; destruct (nth_error (rows t) _) as [r|]; try contradiction; cbn [obind]; [|discriminate].
  assert (RH : Forall2 (chain h U) (match pr with Some c => c | None => repeat None (Z.to_nat (tsz t)) end) (match r with Some c => c | None => repeat [] (Z.to_nat (tsz t)) end)).
  { destruct pr, r; cbn [row_rel] in RW; try contradiction; [exact RW|]. apply F2_repeat. reflexivity. }
  set (heads := match pr with Some c => c | None => _ end) in *. set (chains := match r with Some c => c | None => _ end) in *.
  pose proof (F2_nth _ _ _ (Z.to_nat (Z.land (a_addr a) (tsz t - 1))) RH) as RC.
  destruct (nth_error heads _) as [hd|]; destruct (nth_error chains _) as [c|]; try contradiction; cbn [obind]; [|discriminate].
  set (h' := match hd with Some s => set_next h n s a | None => h end).
  assert (FR : forall m, m <> n -> h' m = h m).
  { intros m N. unfold h', set_next. destruct hd; [|reflexivity]. now rewrite (proj2 (Nat.eqb_neq _ _) N). }
  assert (FS : forall m, option_map snd (h' m) = option_map snd (h m)).
  { intros m. destruct (Nat.eq_dec m n) as [->|N]; [|now rewrite FR]. unfold h', set_next. destruct hd; [|reflexivity]. now rewrite Nat.eqb_refl, EH. }
  assert (FU : forall m, In m U -> h' m = h m) by (intros m J; apply FR; intros ->; contradiction).
  assert (INC : incl U (n :: U)) by (intros m J; now right).
  assert (NC : chain h' (n :: U) (Some n) (mknode n a :: c)).
  { cbn [chain nid naddr]. split; [reflexivity|]. split; [now left|]. exists hd. split.
    - unfold h', set_next. destruct hd; [now rewrite Nat.eqb_refl|exact EH].
    - now apply (chain_frame h h' U). }
  assert (RR' : Forall2 (row_rel h' (n :: U)) (upd (prows pt) (Z.to_nat ((bitlen a - 1) mod 256)) (Some (upd heads (Z.to_nat (Z.land (a_addr a) (tsz t - 1))) (Some n))))
     (upd (rows t) (Z.to_nat ((bitlen a - 1) mod 256)) (Some (upd chains (Z.to_nat (Z.land (a_addr a) (tsz t - 1))) (mknode n a :: c))))).
  { apply F2_upd; [revert RR; apply F2_impl; intros u v; now apply row_frame|]. cbn [row_rel]. apply F2_upd; [|exact NC]. revert RH. apply F2_impl. intros u v. now apply chain_frame. }
  destruct (find_in (tin t) (bitlen a) 0) as [i is_in]. destruct is_in; [|destruct (Nat.ltb i (length (tin t))); [|discriminate]]; intros K; injection K as <-;
    (eexists _, _; split; [reflexivity|]; split; [split; [exact RR'|cbn; auto]|]; split; [exact FR|exact FS]).
Qed.

Lemma match_ok h U needle : forall c p fuel, chain h U p c -> (length c < fuel)%nat -> p_match fuel h p needle = Ok (option_map nid (find_match c needle)).
Proof.
  induction c as [|m c IH]; intros p fuel C FU; (destruct fuel as [|fuel]; [lia|]); cbn [chain p_match find_match length] in *; [now subst p|].
  destruct C as (-> & _ & nx & EH & C). rewrite EH. destruct (addr_cmp (naddr m) needle); [reflexivity|]. apply IH; [exact C|lia].
Qed.
Lemma loop_ok h U pt t needle : rel h U pt t -> forall l r, search_loop t l needle = Ok r ->
  exists F, forall fuel, (F <= fuel)%nat -> p_loop fuel h pt l needle = Ok (option_map nid r).
Proof.
  intros (RR & EI & ES & EA). induction l as [|b l IH]; intros r; cbn [search_loop]; [discriminate|]. destruct (b =? 0) eqn:B0.
  { intros K. injection K as <-. exists 0%nat. intros fuel _. cbn [p_loop]. now rewrite B0. }
  destruct (netmask b) as [m| | |] eqn:NM; cbn [obind]; try discriminate. pose proof (F2_nth _ _ _ (Z.to_nat (b - 1)) RR) as RW.
  destruct (nth_error (rows t) _) as [[row|]|] eqn:NR; cbn [obind]; try discriminate. destruct (nth_error (prows pt) _) as [[prow|]|] eqn:NP; cbn [row_rel] in RW; try contradiction.
  pose proof (F2_nth _ _ _ (Z.to_nat (Z.land (Z.land (a_addr needle) m) (tsz t - 1))) RW) as RC.
  destruct (nth_error row _) as [c|] eqn:NC; cbn [obind]; try discriminate. destruct (nth_error prow _) as [hd|] eqn:NH; try contradiction.
  destruct (find_match c needle) as [w|] eqn:FM.
  - intros K. injection K as <-. exists (S (length c)). intros fuel FU. cbn [p_loop]. rewrite B0, NM. cbn [obind]. rewrite ES, NP. cbn [obind]. rewrite NH. cbn [obind].
    rewrite (match_ok h U needle c hd fuel RC ltac:(lia)), FM. reflexivity.
  - intros K. destruct (IH r K) as (F & IHF). exists (S (length c) + F)%nat. intros fuel FU. cbn [p_loop]. rewrite B0, NM. cbn [obind]. rewrite ES, NP. cbn [obind]. rewrite NH. cbn [obind].
    rewrite (match_ok h U needle c hd fuel RC ltac:(lia)), FM. cbn [option_map obind]. apply IHF. lia.
Qed.

Lemma calls_ok A : forall cs h U pts ts rs, Forall2 (rel h U) pts ts -> (forall n, In n (named cs) -> option_map snd (h n) = Some (A n)) ->
  (forall n, In n (added cs) -> exists a, h n = Some (None, a)) -> NoDup (added cs) -> (forall n, In n (added cs) -> ~ In n U) -> spec_calls A ts cs = Ok rs ->
  exists F, forall fuel, (F <= fuel)%nat -> do_calls fuel h pts cs = Ok rs.
Proof.
  induction cs as [|c cs IH]; intros h U pts ts rs RT NA FA ND NU; cbn [spec_calls]; [intros K; injection K as <-; exists 0%nat; reflexivity|].
  destruct c as [i n|i n]; cbn [spec_call named added] in *; pose proof (F2_nth _ _ _ i RT) as RI; destruct (nth_error ts i) as [t|] eqn:NT; try discriminate;
    destruct (nth_error pts i) as [pt|] eqn:NP; try contradiction.
  - destruct (add_node t (mknode n (A n))) as [t'| | |] eqn:AN; cbn [obind]; try discriminate.
    destruct (FA n (or_introl eq_refl)) as (a & EH). pose proof (NA n (or_introl eq_refl)) as EA. rewrite EH in EA. cbn [option_map snd] in EA. injection EA as ->.
    destruct (add_ok h U pt t n None (A n) t' RI EH eq_refl (NU n (or_introl eq_refl)) AN) as (h' & pt' & E1 & R1 & FR & FS).
    apply NoDup_cons_iff in ND. destruct ND as [NI ND]. destruct (spec_calls A (upd ts i t') cs) as [rs'| | |] eqn:SC; cbn [obind]; try discriminate. intros K. injection K as <-.
    destruct (IH h' (n :: U) (upd pts i pt') (upd ts i t') rs') as (F & IHF); [| | |exact ND| |exact SC|].
    + apply F2_upd; [|exact R1]. revert RT. apply F2_impl. intros u v. apply rel_frame; [|intros m J; now right]. intros m J. apply FR. intros ->. now apply (NU n (or_introl eq_refl)).
    + intros m J. rewrite FS. apply NA. now right.
    + intros m J. rewrite FR; [apply FA; now right|]. intros ->. contradiction.
    + intros m J [<-|K]; [contradiction|]. now apply (NU m (or_intror J)).
    + exists F. intros fuel FU. cbn [do_calls do_call]. rewrite NP, E1. cbn [obind]. rewrite (IHF fuel FU). reflexivity.
  - destruct (search_node t (A n)) as [r| | |] eqn:SN; cbn [obind]; try discriminate.
    assert (SE : exists F, forall fuel, (F <= fuel)%nat -> p_search fuel h pt n = Ok (option_map nid r)).
    { unfold search_node in SN. unfold p_search. destruct RI as (RR & EI & ES & EA). rewrite EA. destruct (tany t) as [w|] eqn:ET; cbn [option_map].
      - injection SN as <-. exists 0%nat. reflexivity.
      - pose proof (NA n (or_introl eq_refl)) as EN. destruct (h n) as [[nx a]|]; cbn [option_map snd] in EN; [|discriminate]. injection EN as ->. rewrite EI.
        apply (loop_ok h U pt t (A n)); [split; [exact RR|split; [exact EI|split; [exact ES|rewrite ET; exact EA]]]|exact SN]. }
    destruct SE as (F1 & SE). destruct (spec_calls A ts cs) as [rs'| | |] eqn:SC; cbn [obind]; try discriminate. intros K. injection K as <-.
    destruct (IH h U pts ts rs' RT (fun m J => NA m (or_intror J)) FA ND NU SC) as (F & IHF). exists (F1 + F)%nat. intros fuel FU. cbn [do_calls do_call]. rewrite NP, (SE fuel ltac:(lia)). cbn [obind]. rewrite (IHF fuel ltac:(lia)). reflexivity.
Qed.
Lemma init_rel h size : rel h [] (p_init size) (tbl_init size).
Proof. unfold p_init, tbl_init. repeat split; cbn [prows rows]. apply (F2_repeat (row_rel h [])). exact I. Qed.

(** a table with one chain in use *)
Definition size_of (size : Z) : Z := if size =? 0 then 128 else size.
Definition tab (size b : Z) (key : nat) (p : option nat) : ptbl :=
  mkptbl (upd (repeat None 32) (Z.to_nat (b - 1)) (Some (upd (repeat None (Z.to_nat (size_of size))) key p))) (upd (repeat 0 32) 0 b) (size_of size) None.
Definition key_of (size : Z) (a : Z) : nat := Z.to_nat (Z.land a (size_of size - 1)).
Lemma upd_upd {X} (l : list X) i x y : upd (upd l i x) i y = upd l i y.
Proof. revert i. induction l as [|z l IH]; intros [|i]; cbn [upd]; [reflexivity..|now rewrite IH]. Qed.
Lemma nth_upd {X} (l : list X) i x : (i < length l)%nat -> nth_error (upd l i x) i = Some x.
Proof. intros L. rewrite upd_nth_error, Nat.eqb_refl. apply Nat.ltb_lt in L. now rewrite L. Qed.
Lemma nth_rep {X} (x : X) n i : (i < n)%nat -> nth_error (repeat x n) i = Some x.
Proof. revert i. induction n as [|n IH]; intros [|i] L; cbn [repeat nth_error]; try lia; [reflexivity|apply IH; lia]. Qed.
Lemma size_pos size : 0 <= size -> 1 <= size_of size.
Proof. unfold size_of. destruct (Z.eqb_spec size 0); lia. Qed.
Lemma key_lt size a : 0 <= size -> (key_of size a < Z.to_nat (size_of size))%nat.
Proof. intros S0. unfold key_of. pose proof (size_pos size S0). pose proof (land_le a (size_of size - 1) ltac:(lia)). lia. Qed.
Lemma add_first h size n nx a : 0 <= size -> h n = Some (nx, a) -> 1 <= bitlen a <= 32 -> p_add h (p_init size) n = Ok (h, tab size (bitlen a) (key_of size (a_addr a)) (Some n)).
Proof.
  intros S0 EH BL. unfold p_add. rewrite EH. cbv zeta. replace (bitlen a =? 0) with false by (symmetry; apply Z.eqb_neq; lia). rewrite (Z.mod_small (bitlen a - 1) 256) by lia.
  unfold p_init. cbn [prows psz pin pany]. rewrite nth_rep by lia. cbn [obind]. fold (size_of size). fold (key_of size (a_addr a)).
  rewrite nth_rep by (now apply key_lt). cbn [obind]. cbn [repeat find_in Z.eqb length Nat.ltb Nat.leb]. reflexivity.
Qed.
Lemma add_more h size n nx a s : 0 <= size -> h n = Some (nx, a) -> 1 <= bitlen a <= 32 ->
  p_add h (tab size (bitlen a) (key_of size (a_addr a)) (Some s)) n = Ok (set_next h n s a, tab size (bitlen a) (key_of size (a_addr a)) (Some n)).
Proof.
  intros S0 EH BL. unfold p_add. rewrite EH. cbv zeta. replace (bitlen a =? 0) with false by (symmetry; apply Z.eqb_neq; lia). rewrite (Z.mod_small (bitlen a - 1) 256) by lia.
  unfold tab. cbn [prows psz pin pany]. rewrite nth_upd by (rewrite repeat_length; lia). cbn [obind]. fold (key_of size (a_addr a)).
  rewrite nth_upd by (rewrite repeat_length; now apply key_lt). cbn [obind]. rewrite !upd_upd.
  cbn [repeat upd find_in]. replace (bitlen a =? 0) with false by (symmetry; apply Z.eqb_neq; lia). rewrite Z.eqb_refl. reflexivity.
Qed.
Lemma search_tab fuel h size b p k nx ka m key : 0 <= size -> 1 <= b <= 32 -> h k = Some (nx, ka) -> netmask b = Ok m -> key_of size (Z.land (a_addr ka) m) = key ->
  p_search fuel h (tab size b key p) k = p_match fuel h p ka.
Proof.
  intros S0 BL EH NM <-. unfold p_search, tab. cbn [pany pin]. rewrite EH. change (upd (repeat 0 32) 0 b) with (b :: 0 :: repeat 0 30). cbn [p_loop prows psz Z.eqb].
  replace (b =? 0) with false by (symmetry; apply Z.eqb_neq; lia). rewrite NM. cbn [obind].
  rewrite nth_upd by (rewrite repeat_length; lia). cbn [obind]. fold (key_of size (Z.land (a_addr ka) m)).
  rewrite nth_upd by (rewrite repeat_length; now apply key_lt). cbn [obind]. destruct (p_match fuel h p ka) as [[w|]| | |]; reflexivity.
Qed.
Lemma match_cycle h n a needle : h n = Some (Some n, a) -> addr_cmp a needle = false -> forall fuel, p_match fuel h (Some n) needle = Loop.
Proof. intros EH NC. induction fuel as [|fuel IH]; [reflexivity|]. cbn [p_match]. now rewrite EH, NC. Qed.
