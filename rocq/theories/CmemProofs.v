(** A configuration in memory: its blocks at their addresses, and what the store operations do to them. *)
From Coq Require Import Permutation.
From Verif Require Import Prelude AmemModel AmemProofs OptsModel OptsProofs CfgModel CfgSpec CfgProofs CmemModel CmemSpec Perm.
Local Open Scope Z_scope.

(** memory that consists of given blocks *)
Definition heap (m : cmem) (L : list (nat * cell)) : Prop := Permutation (cells m) L /\ NoDup (map fst (cells m)).
Definition sub (L : list (nat * cell)) (m : cmem) : Prop := forall x c, In (x, c) L -> aget (cells m) x = Some c.
Lemma heap_perm m L L' : heap m L -> Permutation L L' -> heap m L'.
Proof. intros [H N] P. split; [now rewrite H|exact N]. Qed.
Lemma heap_get m x c L : heap m ((x, c) :: L) -> aget (cells m) x = Some c.
Proof. intros [H N]. now apply (aget_perm _ _ _ L). Qed.
Lemma heap_sub m L L' : heap m L -> incl L' L -> sub L' m.
Proof. intros [H N] I x c J. apply aget_in; [exact N|]. apply (Permutation_in _ (Permutation_sym H)). now apply I. Qed.
Lemma heap_size m L : heap m L -> size m = length L.
Proof. intros [H _]. apply (Permutation_length H). Qed.
Lemma heap_put m x c c' L : heap m ((x, c) :: L) -> heap (put m x c') ((x, c') :: L).
Proof. intros [H N]. split; cbn [put cells]; [now apply (aput_perm _ _ c)|now rewrite aput_keys]. Qed.
Lemma heap_free m x c L : heap m ((x, c) :: L) -> exists m', cfree m x = Ok m' /\ heap m' L.
Proof.
  intros H. unfold cfree. rewrite (heap_get _ _ _ _ H). destruct H as [H N]. eexists. split; [reflexivity|]. assert (P : Permutation (adel (cells m) x) L) by now apply (adel_perm _ _ c). split; [exact P|]. cbn [cells]. apply (Permutation_NoDup (l := map fst L)); [symmetry; now apply Permutation_map|]. apply (Permutation_map fst) in H. apply (Permutation_NoDup H) in N. cbn [map] in N. now inversion N.
Qed.
Lemma heap_nodup m L : heap m L -> NoDup (map fst L).
Proof. intros [H N]. now apply (Permutation_NoDup (Permutation_map fst H)). Qed.
Section N.
Variable pick : nat -> list nat -> nat.
Hypothesis fresh : forall k l, ~ In (pick k l) l.
Lemma heap_new m c L : heap m L -> exists x m', cnew pick m c = (x, m') /\ heap m' ((x, c) :: L).
Proof.
  intros [H N]. unfold cnew. eexists _, _. split; [reflexivity|]. split; cbn [cells]; [now apply perm_skip|]. cbn [map fst]. constructor; [apply fresh|exact N].
Qed.
End N.

(** the layout of a configuration *)
Inductive aent := GBool (z : Z) | GInt (z : Z) | GFloat (t : text) | GStr (p : nat) (s : text) | GRef (p : nat) (b v : text).
Record avar := mkav { va : nat; vna : nat; vnm : text; ve : aent }.
Record ablk := mkab { ba : nat; bna : nat; bnm : text; bvs : list avar }.
Definition er (e : aent) : entry := match e with GBool z => EBool z | GInt z => EInt z | GFloat t => EFloat t | GStr _ s => EString s | GRef _ b v => ERef b v end.
Definition cv (e : aent) : cval := match e with GBool z => VBool z | GInt z => VInt z | GFloat t => VFloat t | GStr p _ => VStr p | GRef p _ _ => VRef p end.
Definition strs (e : aent) : list (nat * cell) := match e with GStr p s => [(p, CStr s)] | _ => [] end.
Definition hd_v (l : list avar) : option nat := match l with [] => None | x :: _ => Some (va x) end.
Definition hd_b (l : list ablk) : option nat := match l with [] => None | x :: _ => Some (ba x) end.
Fixpoint cells_v (l : list avar) : list (nat * cell) :=
  match l with [] => [] | x :: r => (va x, CVal (Some (vna x)) (cv (ve x)) (hd_v r)) :: (vna x, CStr (vnm x)) :: strs (ve x) ++ cells_v r end.
Fixpoint cells_b (l : list ablk) : list (nat * cell) :=
  match l with [] => [] | x :: r => (ba x, CBlk (Some (bna x)) (hd_v (bvs x)) (hd_b r)) :: (bna x, CStr (bnm x)) :: cells_v (bvs x) ++ cells_b r end.
Definition erase_v (l : list avar) : list (text * entry) := map (fun x => (vnm x, er (ve x))) l.
Definition erase (l : list ablk) : store := map (fun x => (bnm x, erase_v (bvs x))) l.
Fixpoint find_v (l : list avar) (n : text) : option avar := match l with [] => None | x :: r => if text_eqb (vnm x) n then Some x else find_v r n end.
Fixpoint find_b (l : list ablk) (n : text) : option ablk := match l with [] => None | x :: r => if text_eqb n (bnm x) then Some x else find_b r n end.
Definition aloc (A : list ablk) (b v : text) : option avar := match find_b A b with None => None | Some x => find_v (bvs x) v end.

Lemma find_v_erase l n : get_variable (erase_v l) n = option_map (fun x => er (ve x)) (find_v l n).
Proof. induction l as [|x l IH]; [reflexivity|]. cbn [erase_v map get_variable find_v]. destruct (text_eqb (vnm x) n); [reflexivity|exact IH]. Qed.
Lemma find_b_erase l n : get_block (erase l) n = option_map (fun x => erase_v (bvs x)) (find_b l n).
Proof. induction l as [|x l IH]; [reflexivity|]. cbn [erase map get_block find_b]. destruct (text_eqb n (bnm x)); [reflexivity|exact IH]. Qed.
Lemma aloc_erase A b v : lookup (erase A) b v = option_map (fun x => er (ve x)) (aloc A b v).
Proof. unfold lookup, aloc. rewrite find_b_erase. destruct (find_b A b) as [x|]; cbn [option_map]; [apply find_v_erase|reflexivity]. Qed.
Lemma find_b_in A n x : find_b A n = Some x -> In x A /\ text_eqb n (bnm x) = true.
Proof. induction A as [|y A IH]; cbn [find_b]; [discriminate|]. destruct (text_eqb n (bnm y)) eqn:E; [intros H; assert (y = x) by congruence; subst; split; [now left|exact E]|intros H; destruct (IH H); split; [now right|assumption]]. Qed.
Lemma find_v_in l n x : find_v l n = Some x -> In x l /\ text_eqb (vnm x) n = true.
Proof. induction l as [|y l IH]; cbn [find_v]; [discriminate|]. destruct (text_eqb (vnm y) n) eqn:E; [intros H; assert (y = x) by congruence; subst; split; [now left|exact E]|intros H; destruct (IH H); split; [now right|assumption]]. Qed.

(** walking the chains *)
Lemma get_block_ok : forall A m n fuel, sub (cells_b A) m -> (length A <= fuel)%nat -> m_get_block fuel m (hd_b A) n = Ok (option_map ba (find_b A n)).
Proof.
  induction A as [|x A IH]; intros m n fuel Sb Le; [destruct fuel; reflexivity|]. cbn [length] in Le. destruct fuel as [|fuel]; [lia|]. cbn [hd_b m_get_block find_b]. cbn [cells_b] in Sb. unfold rd_blk. rewrite (Sb _ _ (or_introl eq_refl)). cbn [obind rd_name]. unfold rd_str. rewrite (Sb _ _ (or_intror (or_introl eq_refl))). cbn [obind].
  destruct (text_eqb n (bnm x)); [reflexivity|]. apply IH; [|lia]. intros y c J. apply Sb. right. right. apply in_or_app. now right.
Qed.
Lemma get_variable_ok : forall l m n fuel, sub (cells_v l) m -> (length l <= fuel)%nat -> m_get_variable fuel m (hd_v l) n = Ok (option_map va (find_v l n)).
Proof.
  induction l as [|x l IH]; intros m n fuel Sb Le; [destruct fuel; reflexivity|]. cbn [length] in Le. destruct fuel as [|fuel]; [lia|]. cbn [hd_v m_get_variable find_v]. cbn [cells_v] in Sb. unfold rd_val. rewrite (Sb _ _ (or_introl eq_refl)). cbn [obind rd_name]. unfold rd_str. rewrite (Sb _ _ (or_intror (or_introl eq_refl))). cbn [obind].
  destruct (text_eqb (vnm x) n); [reflexivity|]. apply IH; [|lia]. intros y c J. apply Sb. right. right. apply in_or_app. now right.
Qed.
Lemma len_v l : (length l <= length (cells_v l))%nat.
Proof. induction l as [|x l IH]; cbn [cells_v length]; [lia|]. rewrite app_length. lia. Qed.
Lemma len_b A : (length A <= length (cells_b A))%nat.
Proof. induction A as [|x A IH]; cbn [cells_b length]; [lia|]. rewrite app_length. lia. Qed.
Lemma cells_b_in A x : In x A -> incl ((ba x, CBlk (Some (bna x)) (hd_v (bvs x)) (match A with [] => None | _ => None end)) :: []) [] \/ incl (cells_v (bvs x)) (cells_b A).
Proof. intros I. right. induction A as [|y A IH]; [destruct I|]. cbn [cells_b]. destruct I as [->|I]; intros z J; right; right; apply in_or_app; [now left|right; now apply IH]. Qed.
Lemma blk_in A x : In x A -> exists nx, In (ba x, CBlk (Some (bna x)) (hd_v (bvs x)) nx) (cells_b A).
Proof. induction A as [|y A IH]; [intros []|]. intros [->|I]; cbn [cells_b]; [eexists; now left|]. destruct (IH I) as (nx & J). exists nx. right. right. apply in_or_app. now right. Qed.
Lemma vals_in A x : In x A -> incl (cells_v (bvs x)) (cells_b A).
Proof. intros I. destruct (cells_b_in A x I) as [H|H]; [exfalso; apply (H _ (or_introl eq_refl))|exact H]. Qed.
Lemma val_in l y : In y l -> exists nx, In (va y, CVal (Some (vna y)) (cv (ve y)) nx) (cells_v l).
Proof. induction l as [|x l IH]; [intros []|]. intros [->|I]; cbn [cells_v]; [eexists; now left|]. destruct (IH I) as (nx & J). exists nx. right. right. apply in_or_app. now right. Qed.
Lemma aloc_in A b v y : aloc A b v = Some y -> exists x, In x A /\ In y (bvs x).
Proof. unfold aloc. destruct (find_b A b) as [x|] eqn:E; [|discriminate]. intros F. exists x. split; [now apply find_b_in in E|now apply find_v_in in F]. Qed.

(** references point to the variable they name *)
Definition refs_ok (A : list ablk) : Prop := forall x y p b v, In x A -> In y (bvs x) -> ve y = GRef p b v -> exists z, aloc A b v = Some z /\ va z = p.

(** following references *)
Lemma resolve_ok A m : refs_ok A -> sub (cells_b A) m -> forall fuel b v y e, aloc A b v = Some y -> resolve fuel (erase A) (er (ve y)) = Ok e -> exists b' v' z, aloc A b' v' = Some z /\ er (ve z) = e /\ (forall p q r, ve z <> GRef p q r) /\ m_resolve fuel m (va y) = Ok (cv (ve z)).
Proof.
  intros Rf Sb. induction fuel as [|fuel IH]; intros b v y e L E.
  - destruct (aloc_in _ _ _ _ L) as (x & Ix & Iy). destruct (val_in _ _ Iy) as (nx & J). assert (G : aget (cells m) (va y) = Some (CVal (Some (vna y)) (cv (ve y)) nx)) by (apply Sb, (vals_in A x Ix), J). cbn [m_resolve]. unfold rd_val. rewrite G. cbn [obind].
    destruct (ve y) eqn:Ey; cbn [er resolve cv] in *; try discriminate; exists b, v, y; rewrite Ey; (split; [exact L|]; split; [cbn [er]; congruence|]; split; [discriminate|reflexivity]).
  - destruct (aloc_in _ _ _ _ L) as (x & Ix & Iy). destruct (val_in _ _ Iy) as (nx & J). assert (G : aget (cells m) (va y) = Some (CVal (Some (vna y)) (cv (ve y)) nx)) by (apply Sb, (vals_in A x Ix), J). cbn [m_resolve]. unfold rd_val. rewrite G. cbn [obind].
    destruct (ve y) as [z|z|t|p s|p rb rv] eqn:Ey; cbn [er resolve cv] in *; try (exists b, v, y; rewrite Ey; split; [exact L|]; split; [cbn [er]; congruence|]; split; [discriminate|reflexivity]).
    destruct (Rf x y p rb rv Ix Iy Ey) as (z & Lz & <-). rewrite aloc_erase, Lz in E. cbn [option_map] in E. apply (IH rb rv z e Lz E).
Qed.

(** changing the value of a variable *)
Fixpoint set_v (l : list avar) (n : text) (e : aent) : list avar := match l with [] => [] | x :: r => if text_eqb (vnm x) n then mkav (va x) (vna x) (vnm x) e :: r else x :: set_v r n e end.
Fixpoint set_b (A : list ablk) (b v : text) (e : aent) : list ablk := match A with [] => [] | x :: r => if text_eqb b (bnm x) then mkab (ba x) (bna x) (bnm x) (set_v (bvs x) v e) :: r else x :: set_b r b v e end.
Lemma set_v_hd l n e : hd_v (set_v l n e) = hd_v l.
Proof. destruct l as [|x l]; [reflexivity|]. cbn [set_v]. destruct (text_eqb (vnm x) n); reflexivity. Qed.
Lemma set_b_hd A b v e : hd_b (set_b A b v e) = hd_b A.
Proof. destruct A as [|x l]; [reflexivity|]. cbn [set_b]. destruct (text_eqb b (bnm x)); reflexivity. Qed.
Lemma set_v_cells l n y : find_v l n = Some y -> exists nx R, Permutation (cells_v l) ((va y, CVal (Some (vna y)) (cv (ve y)) nx) :: strs (ve y) ++ R) /\ forall e, Permutation (cells_v (set_v l n e)) ((va y, CVal (Some (vna y)) (cv e) nx) :: strs e ++ R).
Proof.
  induction l as [|x l IH]; cbn [find_v set_v]; [discriminate|]. destruct (text_eqb (vnm x) n) eqn:E.
  - intros H. assert (x = y) by congruence. subst y. exists (hd_v l), ((vna x, CStr (vnm x)) :: cells_v l). cbn [cells_v va vna vnm ve]. split; [perm|]. intros e. perm.
  - intros H. destruct (IH H) as (nx & R & P1 & P2). exists nx, ((va x, CVal (Some (vna x)) (cv (ve x)) (hd_v l)) :: (vna x, CStr (vnm x)) :: strs (ve x) ++ R). cbn [cells_v]. split; [rewrite P1; perm|]. intros e. rewrite set_v_hd, P2. perm.
Qed.
Lemma set_b_cells A b v y : aloc A b v = Some y -> exists nx R, Permutation (cells_b A) ((va y, CVal (Some (vna y)) (cv (ve y)) nx) :: strs (ve y) ++ R) /\ forall e, Permutation (cells_b (set_b A b v e)) ((va y, CVal (Some (vna y)) (cv e) nx) :: strs e ++ R).
Proof.
  unfold aloc. induction A as [|x A IH]; cbn [find_b set_b]; [discriminate|]. destruct (text_eqb b (bnm x)) eqn:E.
  - intros H. destruct (set_v_cells _ _ _ H) as (nx & R & P1 & P2). exists nx, ((ba x, CBlk (Some (bna x)) (hd_v (bvs x)) (hd_b A)) :: (bna x, CStr (bnm x)) :: R ++ cells_b A). cbn [cells_b ba bna bnm bvs]. split; [rewrite P1; perm|]. intros e. rewrite set_v_hd, P2. perm.
  - intros H. destruct (IH H) as (nx & R & P1 & P2). exists nx, ((ba x, CBlk (Some (bna x)) (hd_v (bvs x)) (hd_b A)) :: (bna x, CStr (bnm x)) :: cells_v (bvs x) ++ R). cbn [cells_b]. split; [rewrite P1; perm|]. intros e. rewrite set_b_hd, P2. perm.
Qed.
Lemma set_v_erase l n e : erase_v (set_v l n e) = put_variable (erase_v l) n (er e).
Proof. induction l as [|x l IH]; [reflexivity|]. cbn [set_v erase_v map put_variable]. destruct (text_eqb (vnm x) n); cbn [map vnm ve]; [reflexivity|]. f_equal. exact IH. Qed.
Lemma set_b_erase A b v y e : aloc A b v = Some y -> erase (set_b A b v e) = set_entry (erase A) b v (er e).
Proof.
  unfold aloc, set_entry. rewrite find_b_erase. destruct (find_b A b) as [x|] eqn:F; [|discriminate]. cbn [option_map]. intros H. revert F. induction A as [|z A IH]; cbn [find_b set_b erase map put_block]; [discriminate|]. destruct (text_eqb b (bnm z)) eqn:E.
  - intros X. assert (z = x) by congruence. subst z. cbn [map bnm bvs]. f_equal. f_equal. unfold set_variable. rewrite find_v_erase, H. cbn [option_map]. apply set_v_erase.
  - intros X. cbn [map]. f_equal. now apply IH.
Qed.
Lemma set_v_find l n e n2 : option_map va (find_v (set_v l n e) n2) = option_map va (find_v l n2).
Proof. induction l as [|x l IH]; [reflexivity|]. cbn [set_v find_v]. destruct (text_eqb (vnm x) n); cbn [find_v vnm]; destruct (text_eqb (vnm x) n2); auto. Qed.
Lemma set_b_aloc A b v e b2 v2 : option_map va (aloc (set_b A b v e) b2 v2) = option_map va (aloc A b2 v2).
Proof.
  unfold aloc. induction A as [|x A IH]; [reflexivity|]. cbn [set_b find_b]. destruct (text_eqb b (bnm x)); cbn [find_b bnm]; destruct (text_eqb b2 (bnm x)); cbn [bvs]; auto. apply set_v_find.
Qed.
Lemma set_v_in l n e y : In y (set_v l n e) -> ve y = e \/ In y l.
Proof. induction l as [|x l IH]; cbn [set_v]; [intros []|]. destruct (text_eqb (vnm x) n). - intros [<-|I]; [now left|right; now right]. - intros [<-|I]; [right; now left|]. destruct (IH I); [now left|right; now right]. Qed.
Lemma set_b_in A b v e x y : In x (set_b A b v e) -> In y (bvs x) -> ve y = e \/ exists x', In x' A /\ In y (bvs x').
Proof.
  induction A as [|z A IH]; cbn [set_b]; [intros []|]. destruct (text_eqb b (bnm z)).
  - intros [<-|I] J; [cbn [bvs] in J; apply set_v_in in J; destruct J as [J|J]; [now left|right; exists z; split; [now left|exact J]]|right; exists x; split; [now right|exact J]].
  - intros [<-|I] J; [right; exists z; split; [now left|exact J]|]. destruct (IH I J) as [H|(x' & H1 & H2)]; [now left|right; exists x'; split; [now right|exact H2]].
Qed.
Lemma set_b_refs A b v e : refs_ok A -> (forall p rb rv, e = GRef p rb rv -> exists z, aloc A rb rv = Some z /\ va z = p) -> refs_ok (set_b A b v e).
Proof.
  intros Rf He x y p rb rv Ix Iy Ey. assert (G : exists z, aloc A rb rv = Some z /\ va z = p). { destruct (set_b_in _ _ _ _ _ _ Ix Iy) as [H|(x' & H1 & H2)]; [apply He; congruence|now apply (Rf x' y)]. }
  destruct G as (z & Lz & Ez). pose proof (set_b_aloc A b v e rb rv) as Q. rewrite Lz in Q. cbn [option_map] in Q. destruct (aloc (set_b A b v e) rb rv) as [z'|]; [|discriminate]. exists z'. split; [reflexivity|]. cbn [option_map] in Q. congruence.
Qed.

(** a new variable in a block, a new block *)
Fixpoint add_v (A : list ablk) (b : text) (y : avar) : list ablk := match A with [] => [] | x :: r => if text_eqb b (bnm x) then mkab (ba x) (bna x) (bnm x) (y :: bvs x) :: r else x :: add_v r b y end.
Lemma add_v_hd A b y : hd_b (add_v A b y) = hd_b A.
Proof. destruct A as [|x l]; [reflexivity|]. cbn [add_v]. destruct (text_eqb b (bnm x)); reflexivity. Qed.
Lemma add_v_cells A b x : find_b A b = Some x -> exists nx R, Permutation (cells_b A) ((ba x, CBlk (Some (bna x)) (hd_v (bvs x)) nx) :: R) /\ forall y, ve y = GBool 0 -> Permutation (cells_b (add_v A b y)) ((ba x, CBlk (Some (bna x)) (Some (va y)) nx) :: (va y, CVal (Some (vna y)) (VBool 0) (hd_v (bvs x))) :: (vna y, CStr (vnm y)) :: R).
Proof.
  induction A as [|z A IH]; cbn [find_b add_v]; [discriminate|]. destruct (text_eqb b (bnm z)) eqn:E.
  - intros H. assert (z = x) by congruence. subst z. exists (hd_b A), ((bna x, CStr (bnm x)) :: cells_v (bvs x) ++ cells_b A). cbn [cells_b cells_v ba bna bnm bvs hd_v]. split; [reflexivity|]. intros y Ey. rewrite Ey. cbn [cv strs app]. perm.
  - intros H. destruct (IH H) as (nx & R & P1 & P2). exists nx, ((ba z, CBlk (Some (bna z)) (hd_v (bvs z)) (hd_b A)) :: (bna z, CStr (bnm z)) :: cells_v (bvs z) ++ R). cbn [cells_b]. split; [rewrite P1; perm|]. intros y Ey. rewrite add_v_hd, (P2 y Ey). perm.
Qed.
Lemma text_refl t : text_eqb t t = true.
Proof. apply OptsProofs.text_eqb_refl. Qed.
Lemma text_eqb_eq a b : text_eqb a b = true -> a = b.
Proof. apply OptsProofs.text_eqb_spec. Qed.
Lemma add_v_aloc A b y x : find_b A b = Some x -> find_v (bvs x) (vnm y) = None -> (forall b2 v2 z, aloc A b2 v2 = Some z -> aloc (add_v A b y) b2 v2 = Some z) /\ aloc (add_v A b y) b (vnm y) = Some y.
Proof.
  intros F N. unfold aloc. split.
  - intros b2 v2 z. revert F. induction A as [|w A IH]; cbn [find_b add_v]; [discriminate|]. destruct (text_eqb b (bnm w)) eqn:E; cbn [find_b bnm].
    + intros X. assert (w = x) by congruence. subst w. destruct (text_eqb b2 (bnm x)); [|auto]. cbn [bvs find_v]. destruct (text_eqb (vnm y) v2) eqn:E2; [|auto]. apply text_eqb_eq in E2. subst v2. congruence.
    + intros X. destruct (text_eqb b2 (bnm w)); auto.
  - revert F. induction A as [|w A IH]; cbn [find_b add_v]; [discriminate|]. destruct (text_eqb b (bnm w)) eqn:E; cbn [find_b bnm]; rewrite E.
    + intros _. cbn [bvs find_v]. now rewrite text_refl.
    + exact IH.
Qed.
Lemma add_v_in A b y x z : In x (add_v A b y) -> In z (bvs x) -> z = y \/ exists x', In x' A /\ In z (bvs x').
Proof.
  induction A as [|w A IH]; cbn [add_v]; [intros []|]. destruct (text_eqb b (bnm w)).
  - intros [<-|I] J; [cbn [bvs] in J; destruct J as [J|J]; [now left|right; exists w; split; [now left|exact J]]|right; exists x; split; [now right|exact J]].
  - intros [<-|I] J; [right; exists w; split; [now left|exact J]|]. destruct (IH I J) as [H|(x' & H1 & H2)]; [now left|right; exists x'; split; [now right|exact H2]].
Qed.
Lemma add_v_refs A b y x : refs_ok A -> find_b A b = Some x -> find_v (bvs x) (vnm y) = None -> ve y = GBool 0 -> refs_ok (add_v A b y).
Proof.
  intros Rf F N Ey u z p rb rv Iu Iz Ez. destruct (add_v_in _ _ _ _ _ Iu Iz) as [->|(u' & I1 & I2)]; [congruence|]. destruct (Rf u' z p rb rv I1 I2 Ez) as (q & Lq & Eq). exists q. split; [|exact Eq]. now apply (add_v_aloc A b y x F N).
Qed.
Lemma add_v_erase A b y x : find_b A b = Some x -> find_v (bvs x) (vnm y) = None -> erase (add_v A b y) = set_entry (erase A) b (vnm y) (er (ve y)).
Proof.
  intros F N. unfold set_entry. rewrite find_b_erase, F. cbn [option_map]. revert F. induction A as [|z A IH]; cbn [find_b add_v erase map put_block]; [discriminate|]. destruct (text_eqb b (bnm z)) eqn:E.
  - intros X. assert (z = x) by congruence. subst z. cbn [map bnm bvs]. f_equal. f_equal. unfold set_variable. rewrite find_v_erase, N. reflexivity.
  - intros X. cbn [map]. f_equal. now apply IH.
Qed.
