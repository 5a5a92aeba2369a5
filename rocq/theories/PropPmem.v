(** C67: the memory of pointer arrays and who frees a member. *)
From Coq Require Import Permutation.
From Verif Require Import Prelude Perm HeapModel PtrArrayModel PtrArrayProofs PtrDel PmemModel PmemSpec PmemProofs PmemSim PmemStep.
Local Open Scope Z_scope.

Section P.
(** where malloc places a block: not at NULL and not where one is *)
Variable pick : nat -> list nat -> nat.
Hypothesis ok : good pick.
Notation prun := (prun pick).

Definition alive_n {B} (l : list (option B)) : nat := length (filter (fun o => match o with Some _ => true | None => false end) l).
Lemma all_len ma vm : forall G A, Forall2 (arep ma vm) G A -> length (all G) = (2 * alive_n A)%nat.
Proof. intros G A F. unfold all, alive_n. induction F as [|g o G A Rg F IH]; [reflexivity|]. cbn [flat_map filter]. rewrite app_length, IH. destruct g as [[[a d] x]|], o as [[f l]|]; cbn [arep] in Rg; try contradiction; cbn [acell acells length]; lia. Qed.
Lemma mcells_len : forall ma vm, length ma = length vm -> length (mcells ma vm) = alive_n vm.
Proof. unfold alive_n. induction ma as [|p ma IH]; intros [|o vm] L; try discriminate; [reflexivity|]. cbn [mcells filter length] in *. destruct o; cbn [length]; rewrite IH by lia; reflexivity. Qed.

(** Any program on any number of pointer arrays and members that is fine when an array is a list of member numbers, and in which no member is freed while an array holds it, runs the same in memory wherever malloc places the blocks: every access is to a block that is there, nothing is freed twice, and the blocks left are two for every array that is open and one for every member that was not freed. *)
Theorem C67_history os rs v : vrun vw0 os = Ok (rs, v) ->
  exists w, prun pw0 os = Ok (rs, w) /\ length (blocks (pm w)) = (2 * alive_n (varr v) + alive_n (vmem v))%nat.
Proof.
  intros E. destruct (run_ok pick ok os pw0 vw0 [] rs v inv0 E) as (w & G & Ew & V). exists w. split; [exact Ew|]. rewrite (owns_size _ _ (i_own _ _ _ V)), app_length, (all_len _ _ _ _ (i_rep _ _ _ V)), (mcells_len _ _ (i_len _ _ _ V)). reflexivity.
Qed.
(** When every array and every member is freed, nothing is left: growing an array loses no block. *)
Theorem C67_all_freed os rs v : vrun vw0 os = Ok (rs, v) -> Forall (fun o => o = None) (varr v) -> Forall (fun o => o = None) (vmem v) -> exists w, prun pw0 os = Ok (rs, w) /\ blocks (pm w) = [].
Proof.
  intros E F1 F2. destruct (C67_history os rs v E) as (w & Ew & L). exists w. split; [exact Ew|]. apply length_zero_iff_nil. rewrite L. assert (Q : forall B (l : list (option B)), Forall (fun o => o = None) l -> alive_n l = 0%nat) by (clear; intros B l F; unfold alive_n; induction F as [|o l -> F IH]; [reflexivity|exact IH]). rewrite !Q by assumption. reflexivity.
Qed.

Lemma prun_app : forall a b w, prun w (a ++ b) = ' (l, w) <- prun w a ;; ' (l', w) <- prun w b ;; Ok (l ++ l', w).
Proof.
  induction a as [|o a IH]; intros b w; cbn [app PmemSpec.prun obind]; [destruct (prun w b) as [[l w']| | |]; reflexivity|]. destruct (pstep pick w o) as [[r w']| | |]; cbn [obind]; try reflexivity. rewrite IH. destruct (prun w' a) as [[l w2]| | |]; cbn [obind]; try reflexivity. destruct (prun w2 b) as [[l' w3]| | |]; reflexivity.
Qed.
Lemma map_ptr ma l : map (ptr ma) l = map Z.of_nat (map (addr ma) l).
Proof. now rewrite map_map. Qed.
Lemma alive_cell w v G k : inv w v G -> alive (vmem v) k -> In (addr (pmems w) k) (map fst (mcells (pmems w) (vmem v))).
Proof. intros V (t & E). apply (in_map fst _ (addr (pmems w) k, PMem t)). apply mcells_in; [exact (i_len _ _ _ V)|exact E]. Qed.
Lemma nodup_addr w v G l : inv w v G -> Forall (alive (vmem v)) l -> NoDup (map (addr (pmems w)) l) -> NoDup l.
Proof. intros _ _. apply NoDup_map_inv. Qed.
Lemma NoDup_app_not (A B : list nat) x : NoDup (A ++ B) -> In x A -> ~ In x B.
Proof. induction A as [|y A IH]; [intros _ []|]. cbn [app]. intros N. apply NoDup_cons_iff in N. destruct N as [N1 N2]. intros [-> |I] J; [apply N1; apply in_or_app; now right|exact (IH N2 I J)]. Qed.
(** freeing an array with its members: it works out only if they are distinct, and then they are gone *)
Lemma free_members w v G i f l : inv w v G -> live (varr v) i = Ok (f, l) ->
  pstep pick w (PFree i true) = UB \/
  exists a d x R m' qs R', pstep pick w (PFree i true) = Ok (RCode 0, mkpw m' (upd (parrs w) i None) (pmems w)) /\ nth_error G i = Some (Some (a, d, x)) /\ (forall j h, nth_error G j = Some h -> j <> i -> exists R', Permutation R (acell h ++ R')) /\
    Permutation (R ++ mcells (pmems w) (vmem v)) (qs ++ R') /\ map fst qs = map (addr (pmems w)) l /\ owns m' R' /\ NoDup (map fst (qs ++ R')) /\ NoDup (map fst (R ++ mcells (pmems w) (vmem v))).
Proof.
  intros V E. destruct (get_arr _ _ _ _ _ _ V E) as (a & d & x & Eg & La & Cb & Hx & A). destruct (with_arr _ _ _ _ _ _ _ V Eg) as (R & H & P1 & P2 & P3). cbn [pstep]. rewrite La. cbn [obind]. unfold m_free. rewrite (load_ok _ _ _ _ _ H). cbn [obind]. change (1 >? 0) with true. cbv iota.
  pose proof Hx as (_ & C & _). rewrite map_length in C. rewrite C, Nat2Z.id. pose proof (owns_nodup _ _ H) as ND. rewrite map_app in ND. assert (ND2 : NoDup (map fst (R ++ mcells (pmems w) (vmem v)))) by (clear - ND; cbn [acells map fst app] in ND; apply NoDup_cons_iff in ND; destruct ND as [_ ND]; apply NoDup_cons_iff in ND; apply ND).
  assert (Nad : forall q, In q [a; d] -> ~ In q (map (addr (pmems w)) l)).
  { intros q Iq Jq. apply in_map_iff in Jq. destruct Jq as (k & <- & Jk). rewrite Forall_forall in A. pose proof (alive_cell _ _ _ _ V (A k Jk)) as Ic. apply (NoDup_app_not _ _ (addr (pmems w) k) ND); [exact Iq|]. rewrite map_app. apply in_or_app. now right. }
  destruct (m_free_cases (map (addr (pmems w)) l) [] (pm w) a d x (R ++ mcells (pmems w) (vmem v))) as [U|(m1 & qs & R' & E1 & H1 & P & Eq)].
  - cbn [app]. rewrite <- map_ptr. exact Hx.
  - exact H.
  - apply Nad. now left.
  - apply Nad. right. now left.
  - left. rewrite map_length in U. cbn [length Z.of_nat] in U. rewrite U. reflexivity.
  - right. rewrite map_length in E1. cbn [length Z.of_nat] in E1. rewrite E1. cbn [obind]. rewrite (arr_ok _ _ _ _ _ H1). cbn [obind]. destruct (owns_free m1 d (PBlk (slots x)) ((a, PArr (size x) (count x) d (cb x)) :: R')) as (m2 & E2 & H2); [apply (owns_perm _ _ _ H1); unfold acells; perm|]. rewrite E2. cbn [obind]. destruct (owns_free _ _ _ _ H2) as (m3 & E3 & H3). rewrite E3. cbn [obind].
    exists a, d, x, R, m3, qs, R'. split; [reflexivity|]. split; [exact Eg|]. split; [exact P3|]. split; [exact P|]. split; [exact Eq|]. split; [exact H3|]. split; [|exact ND2]. apply (Permutation_NoDup (Permutation_map fst P)). exact ND2.
Qed.
(** An array that holds a member twice cannot be freed together with its members. *)
Theorem C67_duplicate_refuted os rs v i f l : vrun vw0 os = Ok (rs, v) -> nth_error (varr v) i = Some (Some (f, l)) -> ~ NoDup l -> prun pw0 (os ++ [PFree i true]) = UB.
Proof.
  intros E El D. destruct (run_ok pick ok os pw0 vw0 [] rs v inv0 E) as (w & G & Ew & V). rewrite prun_app, Ew. cbn [obind PmemSpec.prun]. destruct (free_members w v G i f l V (some_live _ _ _ El)) as [->|(a & d & x & R & m' & qs & R' & _ & _ & _ & _ & Eq & _ & ND & _)]; [reflexivity|]. exfalso. apply D. apply (NoDup_map_inv (addr (pmems w))). rewrite <- Eq. rewrite map_app in ND. clear - ND. induction (map fst qs) as [|y l IH]; [constructor|]. cbn [app] in ND. apply NoDup_cons_iff in ND. destruct ND as [N1 N2]. constructor; [intros I; apply N1; apply in_or_app; now left|auto].
Qed.
(** Moving a member to another place makes such an array: the member that was there is lost and the moved one is there twice. *)
Theorem C67_move_refuted os rs v i f l s d : vrun vw0 os = Ok (rs, v) -> nth_error (varr v) i = Some (Some (f, l)) -> 0 <= s < Z.of_nat (length l) -> 0 <= d < Z.of_nat (length l) -> s <> d ->
  (exists w, prun pw0 (os ++ [PMove i s d]) = Ok (rs ++ [RCode 0], w)) /\ prun pw0 (os ++ [PMove i s d; PFree i true]) = UB.
Proof.
  intros E El Hs Hd N. assert (L : (i < length (varr v))%nat) by (apply nth_error_Some; congruence).
  assert (E2 : vrun vw0 (os ++ [PMove i s d]) = Ok (rs ++ [RCode 0], mkvw (upd (varr v) i (Some (f, upd l (Z.to_nat d) (nth (Z.to_nat s) l 0%nat)))) (vmem v))).
  { assert (Ap : forall a b w, vrun w (a ++ b) = ' (l, w) <- vrun w a ;; ' (l', w) <- vrun w b ;; Ok (l ++ l', w)).
    { clear. induction a as [|o a IH]; intros b w; cbn [app vrun obind]; [destruct (vrun w b) as [[l w']| | |]; reflexivity|]. destruct (vstep w o) as [[r w']| | |]; cbn [obind]; try reflexivity. rewrite IH. destruct (vrun w' a) as [[l w2]| | |]; cbn [obind]; try reflexivity. destruct (vrun w2 b) as [[l' w3]| | |]; reflexivity. }
    rewrite Ap, E. cbn [obind vrun vstep]. rewrite (some_live _ _ _ El). cbn [obind]. replace ((s >? Z.of_nat (length l)) || (d >? Z.of_nat (length l))) with false by lia. replace ((0 <=? s) && (s <? Z.of_nat (length l)) && (0 <=? d) && (d <? Z.of_nat (length l))) with true by lia. reflexivity. }
  split; [destruct (C67_history _ _ _ E2) as (w & Ew & _); now exists w|]. replace (os ++ [PMove i s d; PFree i true]) with ((os ++ [PMove i s d]) ++ [PFree i true]) by now rewrite <- app_assoc.
  apply (C67_duplicate_refuted _ _ _ i f (upd l (Z.to_nat d) (nth (Z.to_nat s) l 0%nat)) E2); cbn [varr]; [rewrite upd_nth_error, Nat.eqb_refl; now rewrite (proj2 (Nat.ltb_lt _ _) L)|]. intros ND. rewrite NoDup_nth_error in ND. assert (Z.to_nat s = Z.to_nat d); [|lia]. apply ND; [rewrite upd_length; lia|]. rewrite !upd_nth_error, Nat.eqb_refl. replace (Nat.eqb (Z.to_nat s) (Z.to_nat d)) with false by (symmetry; apply Nat.eqb_neq; lia). replace (Nat.ltb (Z.to_nat d) (length l)) with true by (symmetry; apply Nat.ltb_lt; lia). apply nth_error_nth'. lia.
Qed.

Lemma perm_pull {B} (c : B) A qs T : Permutation (c :: A) (qs ++ T) -> ~ In c qs -> exists T', Permutation T (c :: T') /\ Permutation A (qs ++ T').
Proof.
  intros P N. assert (I : In c (qs ++ T)) by (apply (Permutation_in _ P); now left). apply in_app_or in I. destruct I as [I|I]; [contradiction|]. apply in_split in I. destruct I as (t1 & t2 & ->). exists (t1 ++ t2). split; [symmetry; apply Permutation_middle|]. apply (Permutation_cons_inv (a := c)). rewrite P. rewrite !app_assoc. symmetry. apply Permutation_middle.
Qed.
(** A member that two arrays hold, as after zt_ptr_array_cat: at most one of them may be freed with its members. *)
Theorem C67_shared_refuted os rs v i j f l f2 l2 k : vrun vw0 os = Ok (rs, v) -> i <> j -> nth_error (varr v) i = Some (Some (f, l)) -> nth_error (varr v) j = Some (Some (f2, l2)) -> In k l -> In k l2 ->
  prun pw0 (os ++ [PFree i true; PFree j true]) = UB.
Proof.
  intros E Nij El El2 Ik Ik2. destruct (run_ok pick ok os pw0 vw0 [] rs v inv0 E) as (w & G & Ew & V). rewrite prun_app, Ew. cbn [obind PmemSpec.prun]. destruct (free_members w v G i f l V (some_live _ _ _ El)) as [->|(a & d & x & R & m' & qs & R' & -> & Eg & P3 & P & Eq & H & ND & ND2)]; [reflexivity|]. cbn [obind].
  destruct (get_arr _ _ _ _ _ _ V (some_live _ _ _ El2)) as (b & e & y & Eg2 & Lb & _ & Hy & A2). destruct (P3 j _ Eg2 (not_eq_sym Nij)) as (R1 & PR). cbn [acell] in PR.
  assert (P4 : Permutation (acells b e y ++ R1 ++ mcells (pmems w) (vmem v)) (qs ++ R')) by (rewrite <- P, PR; perm). pose proof ND as ND3. apply (Permutation_NoDup (Permutation_sym (Permutation_map fst P4))) in ND3. rewrite map_app in ND3. destruct (get_arr _ _ _ _ _ _ V (some_live _ _ _ El)) as (a0 & d0 & x0 & _ & _ & _ & _ & A).
  assert (Out : forall q, In q [b; e] -> ~ In q (map (addr (pmems w)) l) /\ ~ In q (map (addr (pmems w)) l2)).
  { intros q Iq. assert (Z : forall l0, Forall (alive (vmem v)) l0 -> ~ In q (map (addr (pmems w)) l0)); [|split; auto]. intros l0 A0 Jq. apply in_map_iff in Jq. destruct Jq as (k0 & <- & Jk). rewrite Forall_forall in A0. pose proof (alive_cell _ _ _ _ V (A0 k0 Jk)) as Ic. apply (NoDup_app_not _ _ _ ND3 Iq). rewrite map_app. apply in_or_app. now right. }
  unfold acells in P4. cbn [app] in P4. apply perm_pull in P4; [|intros I; apply (in_map fst) in I; cbn [fst] in I; rewrite Eq in I; revert I; apply Out; now left]. destruct P4 as (T1 & PT1 & P4). apply perm_pull in P4; [|intros I; apply (in_map fst) in I; cbn [fst] in I; rewrite Eq in I; revert I; apply Out; right; now left]. destruct P4 as (T & PT2 & P4).
  assert (H2 : owns m' (acells b e y ++ T)) by (apply (owns_perm _ _ _ H); unfold acells; rewrite PT1, PT2; perm).
  cbn [pstep pm parrs pmems]. unfold live at 1. rewrite upd_nth_error. replace (Nat.eqb j i) with false by (symmetry; apply Nat.eqb_neq; congruence). apply live_some in Lb. rewrite Lb. cbn [obind]. unfold m_free. rewrite (load_ok _ _ _ _ _ H2). cbn [obind]. change (1 >? 0) with true. cbv iota. pose proof Hy as (_ & C & _). rewrite map_length in C. rewrite C, Nat2Z.id.
  destruct (m_free_cases (map (addr (pmems w)) l2) [] m' b e y T) as [U|(m1 & qs2 & R2 & E1 & H1 & P5 & Eq2)].
  - cbn [app]. rewrite <- map_ptr. exact Hy.
  - exact H2.
  - apply Out. now left.
  - apply Out. right. now left.
  - rewrite map_length in U. cbn [length Z.of_nat] in U. rewrite U. reflexivity.
  - exfalso. rewrite map_app in ND. apply (NoDup_app_not _ _ (addr (pmems w) k) ND).
    + rewrite Eq. now apply in_map.
    + apply (Permutation_in _ (Permutation_sym (Permutation_map fst PT1))). right. apply (Permutation_in _ (Permutation_sym (Permutation_map fst PT2))). right. apply (Permutation_in _ (Permutation_sym (Permutation_map fst P5))). rewrite map_app. apply in_or_app. left. rewrite Eq2. now apply in_map.
Qed.
(** Deleting a member that an array with a callback holds more than once, unless the sweep removes it once only, frees it again. *)
Theorem C67_del_twice_refuted os rs v i l l' c k : vrun vw0 os = Ok (rs, v) -> nth_error (varr v) i = Some (Some (true, l)) -> sweep (length l) k l = (l', c) -> (2 <= c)%nat -> prun pw0 (os ++ [PDel i k]) = UB.
Proof.
  intros E El Es Hc. destruct (run_ok pick ok os pw0 vw0 [] rs v inv0 E) as (w & G & Ew & V). rewrite prun_app, Ew. cbn [obind PmemSpec.prun]. destruct (get_arr _ _ _ _ _ _ V (some_live _ _ _ El)) as (a & d & x & Eg & La & Cb & Hx & A). destruct (with_arr _ _ _ _ _ _ _ V Eg) as (R & H & _).
  assert (Ik : In k l). { destruct (in_dec Nat.eq_dec k l) as [I|N]; [exact I|exfalso]. assert (Z : forall n l0 l1 c0, ~ In k l0 -> sweep n k l0 = (l1, c0) -> c0 = 0%nat); [|specialize (Z _ _ _ _ N Es); lia]. clear. induction n as [|n IH]; intros l0 l1 c0 N E; cbn [sweep] in E; [congruence|]. destruct l0 as [|y r]; [congruence|]. destruct (Nat.eqb_spec y k) as [->|_]; [exfalso; apply N; now left|]. destruct (sweep n k r) as [r' c'] eqn:E'. assert (c0 = c') by congruence. subst. apply (IH r r' c'); [intros I; apply N; now right|exact E']. }
  rewrite Forall_forall in A. destruct (A k Ik) as (t & Et). destruct (get_mem _ _ _ _ _ V (some_live _ _ _ Et)) as (Mk & Rk & Nk & Ak).
  destruct (del_numbers w v G x l k l' c V Hx) as (x' & Ed & Hx' & _); [now apply Forall_forall|exact Ak|exact Nk|exact Es|]. rewrite Cb in Ed.
  cbn [pstep]. rewrite La, Mk. cbn [obind]. unfold m_del. fold (ptr (pmems w) k). replace (ptr (pmems w) k =? 0) with false by (unfold ptr; lia). rewrite (load_ok _ _ _ _ _ H). cbn [obind]. destruct c as [|[|c]]; [lia|lia|]. cbn [repeat] in Ed.
  rewrite (m_del_twice _ (pm w) a d x (R ++ mcells (pmems w) (upd (vmem v) k None)) (ptr (pmems w) k) 0 x' (repeat (ptr (pmems w) k) c) (PMem t)); [reflexivity| |exact Ed]. unfold ptr. rewrite Nat2Z.id. apply (owns_perm _ _ _ H). rewrite (mcells_kill (pmems w) (vmem v) k t (i_len _ _ _ V) Et). perm.
Qed.
End P.

(** members 0..2; array 0 has a callback, array 1 has not; 40 adds make array 1 grow; the program runs, everything is freed and nothing is left *)
Definition demo : list pop := [PNew true; PNew false; PMake 10; PMake 20; PMake 30; PAdd 0 0; PAdd 0 1; PAdd 0 2; PDel 0 0; PGet 0 0; PGet 0 (-1); PCat 1 0; PGet 1 1] ++ repeat (PAdd 1 1) 40 ++ [PMove 1 0 1; PGet 1 1; PDel 1 2; PFree 1 false; PFree 0 true].
Example C67_history_case : match vrun vw0 demo with Ok (rs, v) => nth_error rs 8 = Some (RCode (-1)) /\ nth_error rs 9 = Some (RTag (Some 30)) /\ nth_error rs 12 = Some (RTag (Some 20)) /\ Forall (fun o => o = None) (varr v) /\ Forall (fun o => o = None) (vmem v) | _ => False end.
Proof. vm_compute. repeat split; repeat constructor. Qed.
Example C67_history_memory : match prun next pw0 demo with Ok (rs, w) => blocks (pm w) = [] /\ length rs = 58%nat | _ => False end.
Proof. vm_compute. split; reflexivity. Qed.
Example C67_shared_case : match vrun vw0 [PNew false; PNew false; PMake 10; PAdd 0 0; PCat 1 0] with Ok (_, v) => varr v = [Some (false, [0%nat]); Some (false, [0%nat])] | _ => False end.
Proof. reflexivity. Qed.
Example C67_shared_memory : prun next pw0 [PNew false; PNew false; PMake 10; PAdd 0 0; PCat 1 0; PFree 0 true; PFree 1 true] = UB.
Proof. reflexivity. Qed.
Example C67_duplicate_case : match vrun vw0 [PNew false; PMake 10; PAdd 0 0; PAdd 0 0] with Ok (_, v) => nth_error (varr v) 0 = Some (Some (false, [0; 0]%nat)) | _ => False end.
Proof. reflexivity. Qed.
Example C67_move_case : match vrun vw0 [PNew false; PMake 10; PMake 20; PAdd 0 0; PAdd 0 1] with Ok (_, v) => nth_error (varr v) 0 = Some (Some (false, [0; 1]%nat)) | _ => False end.
Proof. reflexivity. Qed.
(** 0 1 0 2: the first 0 is replaced by 2, the second 0 is the last one then *)
Example C67_del_twice_case : match vrun vw0 [PNew true; PMake 10; PMake 20; PMake 30; PAdd 0 0; PAdd 0 1; PAdd 0 0; PAdd 0 2] with Ok (_, v) => match nth_error (varr v) 0 with Some (Some (true, l)) => sweep (length l) 0 l = ([2; 1]%nat, 2%nat) | _ => False end | _ => False end.
Proof. reflexivity. Qed.

Print Assumptions C67_history.
Print Assumptions C67_all_freed.
Print Assumptions C67_duplicate_refuted.
Print Assumptions C67_move_refuted.
Print Assumptions C67_shared_refuted.
Print Assumptions C67_del_twice_refuted.
