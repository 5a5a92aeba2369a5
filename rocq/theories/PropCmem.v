(** C66: the memory of configurations. *)
From Coq Require Import Ascii String Permutation.
From Verif Require Import Prelude LogSpec AmemModel AmemProofs OptsModel OptsProofs CfgModel CfgSpec CfgProofs CmemModel CmemSpec Perm CmemProofs CmemSim CmemStep.
Local Open Scope Z_scope.

Section P.
(** what the system's strtod accepts; how many references are followed; where malloc places a block, as long as it is not in use *)
Variable isfloat : text -> bool.
Variable fuel : nat.
Variable pick : nat -> list nat -> nat.
Hypothesis fresh : forall k l, ~ In (pick k l) l.
Notation crun := (crun isfloat fuel pick).
Notation vrun := (vrun isfloat fuel).

Definition open_cells (l : list (option store)) : nat := list_sum (map (fun o => match o with Some st => 2 + scells st | None => 0 end)%nat l).
Lemma ccells_len G : List.length (ccells G) = open_cells (map cval_ G).
Proof.
  induction G as [|o G IH]; [reflexivity|]. unfold ccells, open_cells in *. cbn [flat_map map]. rewrite app_length, IH. change (list_sum (?a :: ?l)) with (a + list_sum l)%nat. f_equal. destruct o as [[[[c fn] nm] A]|]; [|reflexivity]. cbn [call cval_]. unfold conf. rewrite app_length. cbn [List.length]. rewrite scells_ok. lia.
Qed.

(** Any program on any number of configurations that is fine when each of them is a value of its own runs the same in memory: every access is to a block that is there, nothing is freed twice, every string handed out reads the same as long as its configuration is open, whatever is stored afterwards; and the blocks left are those of the open configurations and the lost ones, no other. *)
Theorem C66_history os rs v : vrun vw0 os = Ok (rs, v) ->
  exists w, crun cw0 os = Ok (rs, w) /\ List.length (cells (cm w)) = (vlost v + open_cells (vcfg v))%nat.
Proof.
  intros E. destruct (run_ok pick fresh isfloat fuel os cw0 vw0 [] [] rs v inv0 (Forall_nil _) E) as (w & G & L & Ew & V). exists w. split; [exact Ew|]. pose proof (heap_size _ _ (i_heap _ _ _ _ V)) as S. unfold size in S. rewrite S, app_length, ccells_len, (i_lost _ _ _ _ V), <- (i_val _ _ _ _ V). lia.
Qed.
Theorem C66_all_closed os rs v : vrun vw0 os = Ok (rs, v) -> Forall (fun t => t = None) (vcfg v) -> exists w, crun cw0 os = Ok (rs, w) /\ List.length (cells (cm w)) = vlost v.
Proof.
  intros E F. destruct (C66_history os rs v E) as (w & Ew & S). exists w. split; [exact Ew|]. rewrite S. enough (open_cells (vcfg v) = 0%nat) by lia. clear - F. unfold open_cells. induction F as [|x l -> F IH]; [reflexivity|exact IH].
Qed.
(** loading, on values, is C35's *)
Lemma vparse_parse : forall n f blk st k, parse_from isfloat n f blk st = match vparse isfloat n f blk st k with Ok (rc, st', _, _) => Ok (rc, st') | UB => UB | Loop => Loop | Abort => Abort end.
Proof.
  induction n as [|n IH]; intros f blk st k; destruct f as [|c r]; cbn [parse_from vparse]; try reflexivity. destruct (c =? 10); [apply IH|]. destruct (c =? 91); [destruct (read_block r 0); apply IH|]. destruct ((c =? 59) || (c =? 35)); [apply IH|]. destruct (isblank c); [apply IH|]. destruct (parse_line (c :: r)) as [[kv r1]| | |]; cbn [obind]; try reflexivity. destruct kv as [[var val]|]; [|reflexivity]. destruct blk as [b|]; [apply IH|reflexivity].
Qed.
Theorem C66_load v name f st : cfg_ini isfloat f = Ok st <-> exists v', vstep isfloat fuel v (CLoad name (Some f)) = Ok (RLoad (match st with Some _ => true | None => false end), v') /\ vcfg v' = vcfg v ++ [st].
Proof.
  unfold cfg_ini. cbn [vstep]. rewrite (vparse_parse _ _ _ _ 0). destruct (vparse isfloat (S (List.length f)) f (Some global) [] 0) as [[[[rc st'] k] blk]| | |]; cbn [obind]; try (split; [discriminate|intros (v' & E & _); discriminate]). destruct (rc <? 0).
  - split; [intros E; assert (st = None) by congruence; subst; eexists; split; reflexivity|]. intros (v' & E & Ev). destruct st; [discriminate|reflexivity].
  - split; [intros E; assert (st = Some st') by congruence; subst; eexists; split; reflexivity|]. intros (v' & E & Ev). assert (v' = mkvw (vcfg v ++ [Some st']) (vhand v) (vlost v + k)) by congruence. subst v'. cbn [vcfg] in Ev. apply app_inj_tail in Ev. destruct Ev as [_ <-]. reflexivity.
Qed.

Lemma crun_app : forall a b w, crun w (a ++ b) = ' (l, w) <- crun w a ;; ' (l', w) <- crun w b ;; Ok (l ++ l', w).
Proof.
  induction a as [|o a IH]; intros b w; cbn [app CmemSpec.crun obind]; [destruct (crun w b) as [[l w']| | |]; reflexivity|]. destruct (cstep isfloat fuel pick w o) as [[r w']| | |]; cbn [obind]; try reflexivity. rewrite IH. destruct (crun w' a) as [[l w2]| | |]; cbn [obind]; try reflexivity. destruct (crun w2 b) as [[l' w3]| | |]; reflexivity.
Qed.
(** A string handed out is the configuration's own: reading it after the configuration is closed reads freed memory. *)
Theorem C66_dangling os rs v i st b q t rc s : vrun vw0 os = Ok (rs, v) -> nth_error (vcfg v) i = Some (Some st) -> get fuel st b q t = Ok (rc, Some (EString s)) ->
  (exists w rs', crun cw0 (os ++ [CGet i b q t; CClose i]) = Ok (rs ++ rs', w)) /\ crun cw0 (os ++ [CGet i b q t; CClose i; CPeek (List.length (vhand v))]) = UB.
Proof.
  intros E El Eg. destruct (run_ok pick fresh isfloat fuel os cw0 vw0 [] [] rs v inv0 (Forall_nil _) E) as (w & G & L & Ew & V).
  assert (El' : live (vcfg v) i = Ok st) by (unfold live; now rewrite El).
  destruct (get_cfg _ _ _ _ _ _ V El') as (c & fn & nm & A & Eq & Er & Ec & Rf). rewrite <- Er in Eg. destruct (split_at _ _ _ Eq) as (R & P1 & P2). assert (Hc : heap (cm w) (conf c (Some fn) A ++ (fn, CStr nm) :: R ++ L)) by (apply (heap_perm _ _ _ (i_heap _ _ _ _ V)); rewrite P1; cbn [call]; perm).
  destruct (get_ok (cm w) c (Some fn) A _ fuel b q t rc _ Hc Rf Eg) as (x & Ex & p & -> & J). destruct (close_ok (cm w) c fn nm A (R ++ L) Hc) as (m' & E1 & H1).
  assert (Lh : List.length (chand w) = List.length (vhand v)). { pose proof (i_hand _ _ _ _ V) as F. clear - F. induction F; cbn [List.length]; congruence. }
  assert (Dead : aget (cells m') p = None).
  { apply aget_none. intros Iz. apply (Permutation_in _ (Permutation_map fst (proj1 H1))) in Iz. destruct Hc as [Pc Nc]. apply (Permutation_NoDup (Permutation_map fst Pc)) in Nc. revert Nc J Iz. clear. unfold conf. rewrite map_app. intros Nc J Iz. cbn [map app fst] in Nc. apply NoDup_cons_iff in Nc. destruct Nc as [_ Nc]. apply (in_map fst) in J. cbn [fst] in J. revert Nc J Iz. generalize (map fst (cells_b A)). intros l. induction l as [|y l IH]; [intros _ []|]. cbn [app]. intros N [-> |J] I.
    - apply NoDup_cons_iff in N. destruct N as [N _]. apply N. apply in_or_app. right. right. rewrite map_app in *. exact I.
    - apply NoDup_cons_iff in N. destruct N as [_ N]. exact (IH N J I). }
  assert (Rd : rd_str (cm w) p = Ok s) by (unfold rd_str; now rewrite (conf_sub _ _ _ _ _ Hc _ _ J)).
  assert (Sg : cstep isfloat fuel pick w (CGet i b q t) = Ok (RGet rc (Some (EString s)), mkcw (cm w) (ccfg w) (chand w ++ [p]))) by (cbn [cstep]; rewrite Ec; cbn [obind]; rewrite Ex; cbn [obind]; rewrite Rd; reflexivity).
  assert (Sc : cstep isfloat fuel pick (mkcw (cm w) (ccfg w) (chand w ++ [p])) (CClose i) = Ok (RDone, mkcw m' (upd (ccfg w) i None) (chand w ++ [p]))) by (cbn [cstep cm ccfg chand]; rewrite Ec; cbn [obind]; rewrite E1; reflexivity).
  split.
  - eexists _, _. rewrite crun_app, Ew. cbn [obind CmemSpec.crun]. rewrite Sg. cbn [obind]. rewrite Sc. cbn [obind]. reflexivity.
  - rewrite crun_app, Ew. cbn [obind CmemSpec.crun]. rewrite Sg. cbn [obind]. rewrite Sc. cbn [obind cstep chand cm]. rewrite nth_error_app2 by lia. replace (List.length (vhand v) - List.length (chand w))%nat with 0%nat by lia. cbn [nth_error]. unfold rd_str. rewrite Dead. reflexivity.
Qed.

(** Nothing frees a string that is replaced: k replacements leave k blocks behind, after the configuration is closed. *)
Definition one : store := [([98], [([118], EString [120])])].
Lemma sets_run : isfloat [120] = false -> forall k n, vrun (mkvw [Some one] [] n) (repeat (CSet 0 [98] [118] (AString [120])) k) = Ok (repeat (RSet 1) k, mkvw [Some one] [] (n + k)).
Proof.
  intros F. induction k as [|k IH]; intros n; [cbn [repeat CmemSpec.vrun]; do 3 f_equal; lia|]. cbn [repeat CmemSpec.vrun vstep vcfg live nth_error obind]. unfold set. cbn [obind]. unfold insert, one. cbv zeta. change (bounded [120]) with [120]. assert (Ty : get_type isfloat [120] = EString [120]) by (unfold get_type; cbn; rewrite F; reflexivity). rewrite Ty. cbn [obind]. replace (vrun _ _) with (vrun (mkvw [Some one] [] (n + 1)) (repeat (CSet 0 [98] [118] (AString [120])) k)) by reflexivity. rewrite IH. cbn [obind]. do 3 f_equal. lia.
Qed.
Theorem C66_overwrite_refuted k : isfloat [120] = false ->
  exists w, crun cw0 (CLoad [] (Some []) :: repeat (CSet 0 [98] [118] (AString [120])) (S k) ++ [CClose 0]) = Ok (RLoad true :: repeat (RSet 1) (S k) ++ [RDone], w) /\ ccfg w = [None] /\ List.length (cells (cm w)) = k.
Proof.
  intros F. assert (Ty : get_type isfloat [120] = EString [120]) by (unfold get_type; cbn; rewrite F; reflexivity).
  assert (E : vrun vw0 (CLoad [] (Some []) :: repeat (CSet 0 [98] [118] (AString [120])) (S k) ++ [CClose 0]) = Ok (RLoad true :: repeat (RSet 1) (S k) ++ [RDone], mkvw [None] [] k)).
  { assert (App : forall a b w l w1 l' w2, vrun w a = Ok (l, w1) -> vrun w1 b = Ok (l', w2) -> vrun w (a ++ b) = Ok (l ++ l', w2)). { induction a as [|o a IH]; intros b w l w1 l' w2 Ea Eb; cbn [app CmemSpec.vrun] in *; [assert (l = [] /\ w1 = w) as [-> ->] by (split; congruence); exact Eb|]. apply obind_ok in Ea. destruct Ea as ([r wx] & Eo & Ea). apply obind_ok in Ea. destruct Ea as ([lx wy] & Ex & Ea). assert (l = r :: lx /\ w1 = wy) as [-> ->] by (split; congruence). rewrite Eo. cbn [obind]. rewrite (IH _ _ _ _ _ _ Ex Eb). reflexivity. }
    change (CLoad [] (Some []) :: repeat (CSet 0 [98] [118] (AString [120])) (S k) ++ [CClose 0]) with ([CLoad [] (Some []); CSet 0 [98] [118] (AString [120])] ++ (repeat (CSet 0 [98] [118] (AString [120])) k ++ [CClose 0])). change (RLoad true :: repeat (RSet 1) (S k) ++ [RDone]) with ([RLoad true; RSet 1] ++ (repeat (RSet 1) k ++ [RDone])).
    apply (App _ _ _ _ (mkvw [Some one] [] 0)).
    - cbn [CmemSpec.vrun vstep vw0 vcfg vhand vlost List.length vparse obind]. change (0 <? 0) with false. cbv iota. cbn [obind live nth_error app vcfg vhand vlost]. unfold set. cbn [obind]. unfold insert. cbv zeta. change (bounded [120]) with [120]. rewrite Ty. reflexivity.
    - apply (App _ _ _ _ (mkvw [Some one] [] k)); [exact (sets_run F k 0)|reflexivity]. }
  destruct (run_ok pick fresh isfloat fuel _ cw0 vw0 [] [] _ _ inv0 (Forall_nil _) E) as (w & G & L & Ew & V). exists w. split; [exact Ew|]. assert (Gn : G = [None]). { pose proof (i_val _ _ _ _ V) as X. cbn [vcfg] in X. destruct G as [|[[[[? ?] ?] ?]|] [|? ?]]; cbn in X; try discriminate. reflexivity. } subst G. split; [exact (i_addr _ _ _ _ V)|]. pose proof (heap_size _ _ (i_heap _ _ _ _ V)) as S. unfold size in S. rewrite S, app_length, (i_lost _ _ _ _ V). reflexivity.
Qed.
(** A boolean given as a number is refused, and every refusal leaves three blocks behind. *)
Theorem C66_refused_refuted os rs v i st b q k : vrun vw0 os = Ok (rs, v) -> nth_error (vcfg v) i = Some (Some st) ->
  exists w, crun cw0 (os ++ repeat (CSet i b q ABoolInt) k) = Ok (rs ++ repeat (RSet (-1)) k, w) /\ List.length (cells (cm w)) = (vlost v + open_cells (vcfg v) + 3 * k)%nat.
Proof.
  intros E El.
  assert (R : forall k n, vrun (mkvw (vcfg v) (vhand v) n) (repeat (CSet i b q ABoolInt) k) = Ok (repeat (RSet (-1)) k, mkvw (vcfg v) (vhand v) (n + 3 * k))).
  { clear - El. induction k as [|k IH]; intros n; [cbn [repeat CmemSpec.vrun]; do 3 f_equal; lia|]. cbn [repeat CmemSpec.vrun vstep vcfg vhand vlost]. unfold live. rewrite El. cbn [obind set]. change (-1 <? 0) with true. cbv iota. rewrite (upd_self (vcfg v) i (Some st) El). cbn [obind]. rewrite IH. cbn [obind]. do 3 f_equal. lia. }
  assert (App : forall a b w l w1 l' w2, vrun w a = Ok (l, w1) -> vrun w1 b = Ok (l', w2) -> vrun w (a ++ b) = Ok (l ++ l', w2)). { induction a as [|o a IH]; intros b0 w l w1 l' w2 Ea Eb; cbn [app CmemSpec.vrun] in *; [assert (l = [] /\ w1 = w) as [-> ->] by (split; congruence); exact Eb|]. apply obind_ok in Ea. destruct Ea as ([r wx] & Eo & Ea). apply obind_ok in Ea. destruct Ea as ([lx wy] & Ex & Ea). assert (l = r :: lx /\ w1 = wy) as [-> ->] by (split; congruence). rewrite Eo. cbn [obind]. rewrite (IH _ _ _ _ _ _ Ex Eb). reflexivity. }
  specialize (R k (vlost v)). assert (Ev : mkvw (vcfg v) (vhand v) (vlost v) = v) by now destruct v. rewrite Ev in R. destruct (C66_history _ _ _ (App _ _ _ _ _ _ _ E R)) as (w & Ew & S). exists w. split; [exact Ew|]. rewrite S. cbn [vlost vcfg]. lia.
Qed.
(** A file that does not parse leaves behind everything stored up to the error, although no configuration is returned. *)
Theorem C66_failed_load_refuted name f rc st k blk : vparse isfloat (S (List.length f)) f (Some global) [] 0 = Ok (rc, st, k, blk) -> rc < 0 ->
  exists w, crun cw0 [CLoad name (Some f)] = Ok ([RLoad false], w) /\ ccfg w = [None] /\ List.length (cells (cm w)) = (k + scells st + match blk with Some _ => 1 | None => 0 end)%nat.
Proof.
  intros E Hr. assert (Ev : vrun vw0 [CLoad name (Some f)] = Ok ([RLoad false], mkvw [None] [] (k + scells st + match blk with Some _ => 1 | None => 0 end)%nat)). { cbn [CmemSpec.vrun vstep]. rewrite E. cbn [obind]. assert (X : (rc <? 0) = true) by lia. rewrite X. cbn [obind vw0 vcfg vhand vlost app]. reflexivity. }
  destruct (run_ok pick fresh isfloat fuel _ cw0 vw0 [] [] _ _ inv0 (Forall_nil _) Ev) as (w & G & L & Ew & V). exists w. split; [exact Ew|]. assert (Gn : G = [None]). { pose proof (i_val _ _ _ _ V) as X. cbn [vcfg] in X. destruct G as [|[[[[? ?] ?] ?]|] [|? ?]]; cbn in X; try discriminate. reflexivity. } subst G. split; [exact (i_addr _ _ _ _ V)|]. pose proof (heap_size _ _ (i_heap _ _ _ _ V)) as S. unfold size in S. rewrite S, app_length, (i_lost _ _ _ _ V). reflexivity.
Qed.
End P.

(** non-vacuity *)
Definition next (c : nat) (l : list nat) : nat := S (fold_right Nat.max 0%nat l).
Lemma next_fresh : forall c l, ~ In (next c l) l.
Proof. intros c l H. assert (B : forall y l, In y l -> (y <= fold_right Nat.max 0 l)%nat). { clear. intros y. induction l as [|z l IH]; [intros []|]. intros [->|I]; cbn [fold_right]; [lia|]. apply IH in I. lia. } apply B in H. unfold next in H. lia. Qed.
Definition nofloat (t : text) := false.
Definition nl : text := [10].
Definition file1 : text := LogSpec.str "[net]" ++ nl ++ LogSpec.str "host = 'example'" ++ nl ++ LogSpec.str "port = 80" ++ nl ++ LogSpec.str "alias = net.host" ++ nl ++ LogSpec.str "host = 'other'" ++ nl.
Definition file2 : text := LogSpec.str "name = 'x'" ++ nl ++ LogSpec.str "broken" ++ nl.
Definition sample : list cop := [CLoad [102] (Some file1); CLoad [103] (Some file2); CLoad [104] None; CGet 0 (LogSpec.str "net") (LogSpec.str "alias") TString; CSet 0 (LogSpec.str "net") (LogSpec.str "host") (AString (LogSpec.str "third")); CPeek 0; CGet 0 (LogSpec.str "net") (LogSpec.str "alias") TString; CSet 0 (LogSpec.str "net") (LogSpec.str "port") (AInt 81); CGet 0 (LogSpec.str "net") (LogSpec.str "port") TInt; CSet 0 (LogSpec.str "net") (LogSpec.str "port") ABoolInt; CPeek 1].
Example C66_ex_history : match vrun nofloat 5 vw0 sample, crun nofloat 5 next cw0 sample, crun nofloat 5 next cw0 (sample ++ [CClose 0]) with
  | Ok (rs, v), Ok (rs', w), Ok (_, w') => rs = rs' /\ rs = [RLoad true; RLoad false; RLoad false; RGet 3 (Some (EString (LogSpec.str "other"))); RSet 1; RText (LogSpec.str "other"); RGet 3 (Some (EString (LogSpec.str "third"))); RSet 1; RGet 1 (Some (EInt 81)); RSet (-1); RText (LogSpec.str "third")]
      /\ vlost v = 11%nat /\ map (option_map scells) (vcfg v) = [Some 9; None; None]%nat /\ List.length (cells (cm w)) = 22%nat /\ List.length (cells (cm w')) = 11%nat
  | _, _, _ => False end.
Proof. vm_compute. repeat split. Qed.
Example C66_ex_dangling : match vrun nofloat 5 vw0 [CLoad [102] (Some file1)] with Ok (_, v) => match vcfg v with [Some st] => get 5 st (LogSpec.str "net") (LogSpec.str "host") TString = Ok (3, Some (EString (LogSpec.str "other"))) | _ => False end | _ => False end.
Proof. vm_compute. reflexivity. Qed.
Example C66_ex_failed : match vparse nofloat (S (List.length file2)) file2 (Some global) [] 0 with Ok (rc, st, k, blk) => rc = -1 /\ (k + scells st + match blk with Some _ => 1 | None => 0 end)%nat = 6%nat | _ => False end.
Proof. vm_compute. repeat split. Qed.

Print Assumptions C66_history.
Print Assumptions C66_all_closed.
Print Assumptions C66_load.
Print Assumptions C66_dangling.
Print Assumptions C66_overwrite_refuted.
Print Assumptions C66_refused_refuted.
Print Assumptions C66_failed_load_refuted.
