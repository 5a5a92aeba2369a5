(** The invariant of histories of pools, and its preservation by every call. *)
From Verif Require Import Prelude Heap Sep EzModel EzProofs EzSpec.
From Coq Require Import Permutation.

Definition full (h : eheap) (L : list (nat * cell)) : Prop := wf h /\ holds h L /\ forall b, cells h b <> None -> In b (map fst L).
Lemma full_perm h L L' : Permutation L L' -> full h L -> full h L'.
Proof. intros P (A & B & C). split; [exact A|]. split; [revert B; now apply holds_perm|]. intros b I. eapply Permutation_in; [apply Permutation_map, P|]. now apply C. Qed.
Lemma full_load h a n L : full h ((a, n) :: L) -> a <> 0 /\ load h a = Ok n.
Proof. intros (_ & B & _). now apply holds_head in B. Qed.
Lemma full_store h a n n' L : full h ((a, n) :: L) -> exists h', store h a n' = Ok h' /\ full h' ((a, n') :: L).
Proof.
  intros (A & B & D). exists (hupd h a n'). destruct (holds_head _ _ _ _ B) as [N E]. unfold load in E. destruct (cells h a) eqn:F; [|discriminate]. split; [now apply store_ok with (c' := c)|]. split; [now apply wf_upd with (c' := c)|]. split; [eapply holds_upd, B|].
  intros b I. cbn [map fst In]. destruct (Nat.eq_dec b a) as [->|NE]; [now left|]. rewrite hupd_other in I by exact NE. apply (D b I).
Qed.
Lemma full_alloc h c L : full h L -> exists h', alloc h c = (fresh h, h') /\ full h' ((fresh h, c) :: L).
Proof.
  intros (A & B & D). destruct (holds_alloc h c L A B) as (h' & E & H & W & K). exists h'. split; [exact E|]. split; [exact W|]. split; [exact H|]. intros b I. cbn [map fst In]. destruct (Nat.eq_dec b (fresh h)) as [->|NE]; [now left|]. rewrite K in I by exact NE. right. now apply D.
Qed.
Lemma full_gone h h' L F : full h (L ++ F) -> holds h' F -> gone h' L -> keeps h h' (map fst L) -> full h' F.
Proof.
  intros ((W0 & W1 & W2) & B & D) H G [Fr K].
  assert (Q : forall b, cells h b = None -> cells h' b = None). { intros b E. destruct (in_dec Nat.eq_dec b (map fst L)) as [I|I]; [now apply G|now rewrite K]. }
  split; [split; [now apply Q|split; [lia|]]; intros a LE; apply Q, W2; lia|]. split; [exact H|]. intros b I.
  destruct (in_dec Nat.eq_dec b (map fst L)) as [J|J]; [exfalso; apply I; now apply G|]. rewrite K in I by exact J. apply D in I. rewrite map_app in I. apply in_app_or in I. tauto.
Qed.

Definition fcells (fo : list pt) : list (nat * cell) := flat_map (fun t => pcells t 0) fo.
Definition mcells (m : list nat) : list (nat * cell) := map (fun b => (b, Block)) m.
Definition roots (t : pt) : list (nat * nat) := map (fun a => (a, rt t)) (addrs t).
Definition inv (s : st) (h : eheap) : Prop := exists fo,
  Forall (fun t => shape t = 1) fo /\ full h (fcells fo ++ mcells (mine s)) /\ Permutation (pools s) (flat_map roots fo) /\ Permutation (rg s) (flat_map regs fo).

(** reading the forest off its cells *)
Lemma ccells_pool : forall cs b, In b (map fst (filter (fun e => match snd e with Pool _ _ _ _ => true | _ => false end) (ccells cs))) -> False.
Proof.
  induction cs as [|[[x d] f] cs IH]; intros b; cbn [ccells filter snd map In]; [tauto|]. rewrite filter_app, map_app, in_app_iff. destruct f; cbn [own filter snd map In]; intros [[]|I]; now apply (IH b).
Qed.
Definition ispool (e : nat * cell) : bool := match snd e with Pool _ _ _ _ => true | _ => false end.
Definition isblock (e : nat * cell) : bool := match snd e with Block => true | _ => false end.
Definition ischunk (e : nat * cell) : bool := match snd e with Chunk _ _ _ => true | _ => false end.
Lemma blocks_app a b : blocks (a ++ b) = blocks a ++ blocks b.
Proof. unfold blocks. now rewrite filter_app, map_app. Qed.
Lemma ccells_sort a : forall cs, map fst (filter ispool (ccells cs)) = [] /\ map fst (filter isblock (ccells cs)) = blocks (map (pair a) (cdrops cs)) /\ map fst (filter ischunk (ccells cs)) = map (fun e => fst (fst e)) cs.
Proof.
  induction cs as [|[[x d] f] cs (A & B & C)]; [split; [|split]; reflexivity|]. cbn [ccells cdrops map fst snd]. cbn [filter ispool isblock ischunk snd]. rewrite !filter_app. change (map (pair a) (cdrops cs)) with (map (pair a) (cdrops cs)) in B. unfold cdrops in *.
  cbn [map fst]. rewrite !map_app, A, B, C. destruct f; cbn [own filter ispool isblock ischunk snd map fst app blocks isuser negb]; split; try reflexivity; split; reflexivity.
Qed.
Lemma pcells_sort : forall t par, map fst (filter ispool (pcells t par)) = addrs t /\ map fst (filter isblock (pcells t par)) = blocks (regs t) /\ map fst (filter ischunk (pcells t par)) = headers t.
Proof.
  induction t as [|a cs s IHs n IHn]; intros par; [split; [|split]; reflexivity|]. destruct (IHs a) as (A1 & B1 & C1), (IHn par) as (A2 & B2 & C2), (ccells_sort a cs) as (A3 & B3 & C3).
  cbn [pcells filter ispool isblock ischunk snd addrs regs headers]. rewrite !blocks_app. cbn [map fst]. rewrite !filter_app, !map_app, A1, B1, C1, A2, B2, C2, A3, B3, C3. split; [reflexivity|]. split; reflexivity.
Qed.
Lemma fcells_sort : forall fo, map fst (filter ispool (fcells fo)) = flat_map addrs fo /\ map fst (filter isblock (fcells fo)) = blocks (flat_map regs fo) /\ map fst (filter ischunk (fcells fo)) = flat_map headers fo.
Proof.
  induction fo as [|t fo (A & B & C)]; [split; [|split]; reflexivity|]. destruct (pcells_sort t 0) as (A1 & B1 & C1). unfold fcells in *. cbn [flat_map]. rewrite blocks_app, !filter_app, !map_app, A, B, C, A1, B1, C1. split; [reflexivity|]. split; reflexivity.
Qed.
Lemma headers_len : forall t, length (headers t) = length (regs t).
Proof. induction t as [|a cs s IHs n IHn]; [reflexivity|]. cbn [headers regs]. rewrite !app_length, !map_length. unfold cdrops. rewrite map_length. lia. Qed.
Lemma roots_fst : forall fo, map fst (flat_map roots fo) = flat_map addrs fo.
Proof. induction fo as [|t fo IH]; [reflexivity|]. cbn [flat_map]. rewrite map_app, IH. f_equal. unfold roots. rewrite map_map. cbn [fst]. apply map_id. Qed.
Lemma pools_addrs s fo : Permutation (pools s) (flat_map roots fo) -> Permutation (map fst (pools s)) (flat_map addrs fo).
Proof. intros P. rewrite <- roots_fst. now apply Permutation_map. Qed.

Lemma NoDup_fst_filter {A B} (f : A * B -> bool) l : NoDup (map fst l) -> NoDup (map fst (filter f l)).
Proof.
  induction l as [|e l IH]; [trivial|]. cbn [map filter]. intros D. apply NoDup_cons_iff in D. destruct D as [N D]. destruct (f e); [|auto]. cbn [map]. constructor; [|auto]. intros I. apply N. apply in_map_iff in I. destruct I as (x & <- & I). apply filter_In in I. apply in_map, I.
Qed.
Lemma three_way (L : list (nat * cell)) : Permutation L (filter ispool L ++ filter isblock L ++ filter ischunk L).
Proof.
  induction L as [|[a c] L IH]; [reflexivity|]. destruct c; cbn [filter ispool isblock ischunk snd]; [cbn [app]; now constructor| |].
  - transitivity ((a, Chunk data next f) :: filter ispool L ++ filter isblock L ++ filter ischunk L); [now constructor|]. permutes.
  - transitivity ((a, Block) :: filter ispool L ++ filter isblock L ++ filter ischunk L); [now constructor|]. permutes.
Qed.
Lemma mcells_sort m : filter ispool (mcells m) = [] /\ filter isblock (mcells m) = mcells m /\ filter ischunk (mcells m) = [] /\ map fst (mcells m) = m.
Proof. induction m as [|x m (A & B & C & D)]; [repeat split|]. cbn [mcells map filter ispool isblock ischunk snd fst]. fold (mcells m). rewrite A, B, C, D. repeat split. Qed.
Lemma full_iff h L f b : full h L -> (exists c, f (b, c) = true /\ cells h b = Some c) <-> In b (map fst (filter f L)).
Proof.
  intros (_ & [_ F] & D). rewrite Forall_forall in F. rewrite in_map_iff. split.
  - intros (c & T & E). assert (I : In b (map fst L)) by (apply D; now rewrite E). apply in_map_iff in I. destruct I as ([x c'] & X & I). cbn [fst] in X. subst x. destruct (F _ I) as [_ Y]. cbn [fst snd] in Y. assert (c' = c) by congruence. subst c'. exists (b, c). split; [reflexivity|]. now apply filter_In.
  - intros ([x c] & X & I). cbn [fst] in X. subst x. apply filter_In in I. destruct I as [I T]. destruct (F _ I) as [_ Y]. exists c. now split.
Qed.
Lemma blocks_perm a b : Permutation a b -> Permutation (blocks a) (blocks b).
Proof.
  unfold blocks. induction 1 as [|x a b _ IH|x y a|a b c _ I1 _ I2]; [reflexivity| | |now rewrite I1]; cbn [filter]; [destruct (negb _); [cbn [map]; now constructor|exact IH]|]. destruct (negb (isuser (fst (snd x)))), (negb (isuser (fst (snd y)))); cbn [map]; try reflexivity. apply perm_swap.
Qed.
Lemma nodup_left {A} (a b : list A) : NoDup (a ++ b) -> NoDup a.
Proof. induction a as [|x a IH]; [constructor|]. cbn [app]. intros D. apply NoDup_cons_iff in D. destruct D as [N D]. constructor; [|auto]. intros I. apply N, in_or_app. now left. Qed.
Theorem inv_memory s h : inv s h -> memory s h.
Proof.
  intros (fo & _ & Fu & Pp & Pr). destruct (fcells_sort fo) as (A & B & C), (mcells_sort (mine s)) as (M1 & M2 & M3 & M4). pose proof (pools_addrs _ _ Pp) as Pa.
  assert (FP : map fst (filter ispool (fcells fo ++ mcells (mine s))) = flat_map addrs fo) by now rewrite filter_app, map_app, A, M1, app_nil_r.
  assert (FB : map fst (filter isblock (fcells fo ++ mcells (mine s))) = blocks (flat_map regs fo) ++ mine s) by now rewrite filter_app, map_app, B, M2, M4.
  assert (FC : map fst (filter ischunk (fcells fo ++ mcells (mine s))) = flat_map headers fo) by now rewrite filter_app, map_app, C, M3, app_nil_r.
  pose proof (blocks_perm _ _ Pr) as Pb.
  split; [|split; [|split]].
  - pose proof Fu as (_ & [D _] & _). pose proof (Permutation_map fst (three_way (fcells fo ++ mcells (mine s)))) as T. rewrite !map_app, FP, FB, FC in T.
    rewrite <- map_app in T. apply (Permutation_NoDup T) in D. rewrite app_assoc in D. apply nodup_left in D. eapply Permutation_NoDup; [|exact D]. rewrite Pa, Pb. permutes.
  - intros b. transitivity (In b (map fst (filter ispool (fcells fo ++ mcells (mine s))))).
    + rewrite <- (full_iff h _ ispool b Fu). split; [intros (c & u & n & p & E); eexists; split; [|exact E]; reflexivity|]. intros (c & T & E). destruct c; try discriminate T. eauto.
    + rewrite FP. split; apply Permutation_in; [symmetry|]; exact Pa.
  - intros b. transitivity (In b (map fst (filter isblock (fcells fo ++ mcells (mine s))))).
    + rewrite <- (full_iff h _ isblock b Fu). split; [intros E; eexists; split; [|exact E]; reflexivity|]. intros (c & T & E). destruct c; try discriminate T. exact E.
    + rewrite FB. rewrite !in_app_iff. split; (intros [I|I]; [right|left]); try exact I; revert I; apply Permutation_in; [exact (Permutation_sym Pb)|exact Pb].
  - exists (flat_map headers fo). split; [|split].
    + rewrite <- FC. apply NoDup_fst_filter. apply Fu.
    + rewrite (Permutation_length Pr). clear. induction fo as [|t fo IH]; [reflexivity|]. cbn [flat_map]. now rewrite !app_length, IH, headers_len.
    + intros b. rewrite <- FC, <- (full_iff h _ ischunk b Fu). split; [intros (d & n & f & E); eexists; split; [|exact E]; reflexivity|]. intros (c & T & E). destruct c; try discriminate T. eauto.
Qed.

Lemma find_root l p r : NoDup (map fst l) -> In (p, r) l -> find (fun e : nat * nat => fst e =? p) l = Some (p, r).
Proof.
  induction l as [|[q t] l IH]; [intros _ []|]. cbn [map fst find]. intros D. apply NoDup_cons_iff in D. destruct D as [N D]. intros [E|I].
  - injection E as -> ->. cbn [fst]. now rewrite Nat.eqb_refl.
  - cbn [fst]. destruct (Nat.eqb_spec q p) as [->|]; [|auto]. exfalso. apply N. apply in_map_iff. exists (p, r). now split.
Qed.
Lemma inv_nodup s h : inv s h -> NoDup (map fst (pools s)).
Proof. intros I. apply inv_memory in I. destruct I as [D _]. now apply nodup_left in D. Qed.
Lemma root_of_in s h p r : inv s h -> In (p, r) (pools s) -> root_of s p = r.
Proof. intros I J. unfold root_of. now rewrite (find_root _ _ _ (inv_nodup _ _ I) J). Qed.
Lemma locate s fo p : Permutation (pools s) (flat_map roots fo) -> In p (map fst (pools s)) -> exists f1 t f2, fo = f1 ++ t :: f2 /\ In p (addrs t) /\ In (p, rt t) (pools s).
Proof.
  intros P I. apply (Permutation_in _ (pools_addrs _ _ P)) in I. apply in_flat_map in I. destruct I as (t & I & J). apply in_split in I. destruct I as (f1 & f2 & ->). exists f1, t, f2. split; [reflexivity|]. split; [exact J|].
  eapply Permutation_in; [symmetry; exact P|]. rewrite flat_map_app. cbn [flat_map]. apply in_or_app. right. apply in_or_app. left. unfold roots. apply in_map_iff. now exists p.
Qed.

Ltac unflat := unfold fcells in *; rewrite ?flat_map_app in *; cbn [flat_map app] in *.
Lemma chunk_step s h fo p x d f R : full h ((x, Chunk d 0 f) :: own d f ++ fcells fo ++ R) -> In p (map fst (pools s)) -> Forall (fun t => shape t = 1) fo -> Permutation (pools s) (flat_map roots fo) -> Permutation (rg s) (flat_map regs fo) ->
  exists h' fo', chunk_append h p x = Ok h' /\ full h' (fcells fo' ++ R) /\ Forall (fun t => shape t = 1) fo' /\ Permutation (pools s) (flat_map roots fo') /\ Permutation ((p, (f, d)) :: rg s) (flat_map regs fo').
Proof.
  intros Fu I Sh Pp Pr. destruct (locate _ _ _ Pp I) as (f1 & t & f2 & -> & J & _). destruct (at_pool t p 0 J) as (cs & u & n & q & Q & E & C1 & _). destruct (C1 x d f) as (t' & A1 & A2 & A3 & A4 & A5 & A6).
  assert (F1 : full h ((p, Pool (chead cs) u n q) :: (x, Chunk d 0 f) :: own d f ++ Q ++ fcells f1 ++ fcells f2 ++ R)). { revert Fu. apply full_perm. unflat. rewrite E. permutes. }
  destruct (full_load _ _ _ _ F1) as [_ L1]. unfold chunk_append, load_pool. rewrite L1. cbn [obind].
  assert (X : exists h1, (if chead cs =? 0 then Ok h else ' (d0, _, f0) <- load_chunk h x ;; store h x (Chunk d0 (chead cs) f0)) = Ok h1 /\ full h1 ((p, Pool (chead cs) u n q) :: (x, Chunk d (chead cs) f) :: own d f ++ Q ++ fcells f1 ++ fcells f2 ++ R)).
  { destruct (Nat.eqb_spec (chead cs) 0) as [Z|NZ]; [exists h; split; [reflexivity|]; now rewrite Z in *|].
    assert (F2 : full h ((x, Chunk d 0 f) :: (p, Pool (chead cs) u n q) :: own d f ++ Q ++ fcells f1 ++ fcells f2 ++ R)) by (revert F1; apply full_perm; permutes).
    unfold load_chunk. destruct (full_load _ _ _ _ F2) as [_ L2]. rewrite L2. cbn [obind]. destruct (full_store _ _ _ (Chunk d (chead cs) f) _ F2) as (h1 & S1 & F3). exists h1. split; [exact S1|]. revert F3. apply full_perm. permutes. }
  destruct X as (h1 & X1 & F2). rewrite X1. cbn [obind]. destruct (full_store _ _ _ (Pool x u n q) _ F2) as (h2 & S2 & F3). exists h2, (f1 ++ t' :: f2). split; [exact S2|]. split; [|split; [|split]].
  - revert F3. apply full_perm. unflat. rewrite A6. permutes.
  - rewrite Forall_app in *. destruct Sh as [S0 S3]. split; [exact S0|]. apply Forall_cons_iff in S3. constructor; [|apply S3]. rewrite A2. apply S3.
  - rewrite Pp. unflat. unfold roots at 2 5. rewrite A1, A3. reflexivity.
  - rewrite Pr. unflat. rewrite A4. permutes.
Qed.

Definition after (s : st) (o : op) (a : nat) (s' : st) (log : list (cb * nat)) : Prop := logged s o log /\ s' = next s o a.
Lemma init_step s h p : inv s h -> allowed s (Init p) -> exists h' a s', init h p = Ok (h', a) /\ after s (Init p) a s' [] /\ inv s' h'.
Proof.
  intros IV AL. pose proof IV as (fo & Sh & Fu & Pp & Pr). unfold init. destruct (full_alloc h (Pool 0 0 0 0) _ Fu) as (h1 & E1 & F1). rewrite E1. set (a := fresh h) in *. cbn [allowed] in AL. unfold after; cbn [logged next].
  destruct (Nat.eqb_spec p 0) as [->|NP].
  - exists h1, a. eexists. split; [reflexivity|]. split; [split; reflexivity|]. exists (P a [] Nil Nil :: fo). cbn [pools rg mine]. split; [now constructor|]. split; [exact F1|]. split; [cbn [flat_map roots addrs rt map app]; now constructor|exact Pr].
  - destruct AL as [|I]; [contradiction|]. destruct (locate _ _ _ Pp I) as (f1 & t & f2 & -> & J & K). rewrite (root_of_in _ _ _ _ IV K). destruct (at_pool t p 0 J) as (cs & u & n & q & Q & E & _ & C2). destruct (C2 a) as (t' & A1 & A2 & A3 & A4 & A5 & A6).
    set (R := Q ++ fcells f1 ++ fcells f2 ++ mcells (mine s)).
    assert (F2 : full h1 ((p, Pool (chead cs) u n q) :: (a, Pool 0 0 0 0) :: R)). { revert F1. apply full_perm. unfold R. unflat. rewrite E. permutes. }
    destruct (full_load _ _ _ _ F2) as [_ L2]. unfold load_pool at 1. rewrite L2. cbn [obind].
    assert (X : exists h2, (if u =? 0 then Ok h1 else store h1 a (Pool 0 0 u 0)) = Ok h2 /\ full h2 ((p, Pool (chead cs) u n q) :: (a, Pool 0 0 u 0) :: R)).
    { destruct (Nat.eqb_spec u 0) as [Z|NZ]; [exists h1; split; [reflexivity|]; now rewrite Z in *|]. assert (F3 : full h1 ((a, Pool 0 0 0 0) :: (p, Pool (chead cs) u n q) :: R)) by (revert F2; apply full_perm; permutes).
      destruct (full_store _ _ _ (Pool 0 0 u 0) _ F3) as (h2 & S2 & F4). exists h2. split; [exact S2|]. revert F4. apply full_perm. permutes. }
    destruct X as (h2 & X1 & F3). rewrite X1. cbn [obind]. destruct (full_store _ _ _ (Pool (chead cs) a n q) _ F3) as (h3 & S3 & F4). rewrite S3. cbn [obind].
    assert (F5 : full h3 ((a, Pool 0 0 u 0) :: (p, Pool (chead cs) a n q) :: R)) by (revert F4; apply full_perm; permutes).
    unfold load_pool. destruct (full_load _ _ _ _ F5) as [_ L5]. rewrite L5. cbn [obind]. destruct (full_store _ _ _ (Pool 0 0 u p) _ F5) as (h4 & S4 & F6). rewrite S4. cbn [obind].
    exists h4, a. eexists. split; [reflexivity|]. split; [split; reflexivity|]. exists (f1 ++ t' :: f2). cbn [pools rg mine]. split; [|split; [|split]].
    + rewrite Forall_app in *. destruct Sh as [S0 S5]. split; [exact S0|]. apply Forall_cons_iff in S5. constructor; [|apply S5]. rewrite A2. apply S5.
    + revert F6. apply full_perm. unfold R. unflat. rewrite A6. permutes.
    + rewrite Pp. unflat. unfold roots at 2 5. rewrite A1, (Permutation_map (fun a0 => (a0, rt t)) A3). cbn [map]. permutes.
    + rewrite Pr. unflat. rewrite A4. permutes.
Qed.

Lemma remove1_perm d m : NoDup m -> In d m -> Permutation m (d :: remove1 d m).
Proof.
  intros D I. apply in_split in I. destruct I as (u & v & ->). pose proof (NoDup_remove_2 _ _ _ D) as N. unfold remove1. rewrite filter_app. cbn [filter]. rewrite Nat.eqb_refl. cbn [negb].
  assert (Q : forall l, ~ In d l -> filter (fun x => negb (x =? d)) l = l). { induction l as [|x l IH]; [reflexivity|]. intros NI. cbn [filter]. destruct (Nat.eqb_spec x d) as [->|]; [exfalso; apply NI; now left|]. cbn [negb]. rewrite IH; [reflexivity|]. intros J. apply NI. now right. }
  rewrite !Q; [permutes| |]; intros J; apply N, in_or_app; auto.
Qed.
Lemma mine_nodup s h : inv s h -> NoDup (mine s) /\ Forall (fun b => b <> 0) (mine s).
Proof.
  intros IV. split.
  - apply inv_memory in IV. destruct IV as [D _]. rewrite app_assoc in D. apply nodup_left in D. revert D. generalize (map fst (pools s)). induction l as [|x l IH]; [trivial|]. cbn [app]. intros D. apply NoDup_cons_iff in D. now apply IH.
  - destruct IV as (fo & _ & (_ & [_ F] & _) & _). rewrite Forall_app in F. destruct F as [_ F]. unfold mcells in F. rewrite Forall_map in F. revert F. apply Forall_impl. intros a [A _]. exact A.
Qed.

Lemma filter_flat {A B} (f : B -> bool) (g : A -> list B) (l : list A) : filter f (flat_map g l) = flat_map (fun x => filter f (g x)) l.
Proof. induction l as [|x l IH]; [reflexivity|]. cbn [flat_map]. now rewrite filter_app, IH. Qed.
Lemma filter_true {A} (f : A -> bool) l : (forall x, In x l -> f x = true) -> filter f l = l.
Proof. induction l as [|x l IH]; [reflexivity|]. intros H. cbn [filter]. rewrite (H x) by now left. rewrite IH; [reflexivity|]. intros y I. apply H. now right. Qed.
Lemma filter_false {A} (f : A -> bool) l : (forall x, In x l -> f x = false) -> filter f l = [].
Proof. induction l as [|x l IH]; [reflexivity|]. intros H. cbn [filter]. rewrite (H x) by now left. apply IH. intros y I. apply H. now right. Qed.
Lemma filter_perm {A} (f : A -> bool) a b : Permutation a b -> Permutation (filter f a) (filter f b).
Proof. induction 1 as [|x a b _ IH|x y a|a b c _ I1 _ I2]; [reflexivity| | |now rewrite I1]; cbn [filter]; [destruct (f x); [now constructor|exact IH]|]. destruct (f x), (f y); try reflexivity. apply perm_swap. Qed.
Lemma regs_addr : forall t e, In e (regs t) -> In (fst e) (addrs t).
Proof.
  induction t as [|a cs s IHs n IHn]; intros e; cbn [regs addrs]; [intros []|]. rewrite !in_app_iff. cbn [In]. rewrite in_app_iff. intros [I|[I|I]]; [left|right; left; auto|right; right; auto]. apply in_map_iff in I. destruct I as (x & <- & _). reflexivity.
Qed.
Lemma drops_regs : forall t, Permutation (drops t) (map snd (regs t)).
Proof. induction t as [|a cs s IHs n IHn]; [reflexivity|]. cbn [drops regs]. rewrite !map_app, map_map. cbn [snd]. rewrite map_id, IHs, IHn. permutes. Qed.

Lemma destroy_step s h r : inv s h -> allowed s (Destroy r) -> exists N, forall fuel, N <= fuel -> exists h' log s', destroy fuel h r = Ok (h', log) /\ after s (Destroy r) 0 s' log /\ inv s' h'.
Proof.
  intros IV AL. cbn [allowed] in AL. pose proof IV as (fo & Sh & Fu & Pp & Pr).
  assert (I : In r (map fst (pools s))) by (apply in_map_iff; exists (r, r); now split).
  destruct (locate _ _ _ Pp I) as (f1 & t & f2 & -> & J & K).
  assert (RT : rt t = r). { rewrite <- (root_of_in _ _ _ _ IV K). now apply (root_of_in _ _ _ _ IV). }
  assert (ST : shape t = 1) by (rewrite Forall_app in Sh; destruct Sh as [_ Sh]; apply Forall_cons_iff in Sh; apply Sh).
  assert (OT : forall u a, In u (f1 ++ t :: f2) -> In a (addrs u) -> root_of s a = rt u).
  { intros u a IU IA. apply (root_of_in _ _ _ _ IV). eapply Permutation_in; [symmetry; exact Pp|]. apply in_flat_map. exists u. split; [exact IU|]. unfold roots. apply in_map_iff. now exists a. }
  assert (NR : forall u, In u (f1 ++ f2) -> rt u <> r).
  { assert (D : NoDup (flat_map addrs (f1 ++ t :: f2))) by (eapply Permutation_NoDup; [exact (pools_addrs _ _ Pp)|exact (inv_nodup _ _ IV)]).
    intros u IU E. rewrite flat_map_app in D. cbn [flat_map] in D. assert (D' : NoDup (addrs t ++ flat_map addrs (f1 ++ f2))) by (eapply Permutation_NoDup; [|exact D]; rewrite flat_map_app; permutes).
    assert (SU : shape u = 1). { rewrite Forall_forall in Sh. apply Sh. apply in_or_app. apply in_app_or in IU. cbn [In]. tauto. }
    destruct u as [|b ? ? ?]; [discriminate SU|]. cbn [rt] in E. subst b. apply in_split in J. destruct J as (x & y & J). rewrite J, <- app_assoc in D'. apply NoDup_remove_2 in D'. apply D'. apply in_or_app. right. apply in_or_app. right. apply in_flat_map. exists (P r cs u1 u2). split; [exact IU|]. now left. }
  destruct t as [|b cs u [|]]; try discriminate ST. cbn [rt] in RT. subst b. exists (sz (P r cs u Nil)). intros fuel LE. set (t := P r cs u Nil) in *.
  assert (Fu' : full h (pcells t 0 ++ (fcells (f1 ++ f2) ++ mcells (mine s)))) by (revert Fu; apply full_perm; unflat; permutes).
  destruct (destroy_ok r cs u _ h fuel LE (proj1 (proj2 Fu'))) as (h' & E & H & G & Kp). exists h', (drops t). eexists. split; [exact E|]. unfold after; cbn [logged next].
  assert (FO : forall e, In e (regs t) -> (root_of s (fst e) =? r) = true).
  { intros e IE. apply regs_addr in IE. rewrite (OT t (fst e)); [apply Nat.eqb_refl|apply in_or_app; right; now left|exact IE]. }
  assert (FN : forall v e, In v (f1 ++ f2) -> In e (regs v) -> (root_of s (fst e) =? r) = false).
  { intros v e IVv IE. apply regs_addr in IE. rewrite (OT v (fst e)); [apply Nat.eqb_neq, NR, IVv|apply in_or_app; apply in_app_or in IVv; cbn [In]; tauto|exact IE]. }
  assert (P2 : Permutation (rg s) (regs t ++ flat_map regs (f1 ++ f2))) by (rewrite Pr; unflat; permutes).
  assert (P1 : Permutation (pools s) (roots t ++ flat_map roots (f1 ++ f2))) by (rewrite Pp; unflat; permutes).
  split.
  - split; [|reflexivity]. rewrite drops_regs. apply Permutation_map. rewrite (filter_perm _ _ _ P2), filter_app, (filter_true _ _ FO), (filter_false _ (flat_map _ _)); [now rewrite app_nil_r|]. intros e IE. apply in_flat_map in IE. destruct IE as (v & X & Y). now apply (FN v).
  - exists (f1 ++ f2). cbn [pools rg mine]. split; [rewrite Forall_app in *; destruct Sh as [X Y]; apply Forall_cons_iff in Y; tauto|]. split; [exact (full_gone _ _ _ _ Fu' H G Kp)|]. split.
    + rewrite (filter_perm _ _ _ P1), filter_app, (filter_false _ (roots t)), filter_true; [reflexivity| |].
      * intros e IE. apply in_flat_map in IE. destruct IE as (v & X & Y). unfold roots in Y. apply in_map_iff in Y. destruct Y as (z & <- & _). cbn [snd]. now rewrite (proj2 (Nat.eqb_neq _ _) (NR v X)).
      * intros e IE. unfold roots in IE. apply in_map_iff in IE. destruct IE as (z & <- & _). cbn [snd]. unfold t. cbn [rt]. now rewrite Nat.eqb_refl.
    + rewrite (filter_perm _ _ _ P2), filter_app, (filter_false _ (regs t)), filter_true; [reflexivity| |].
      * intros e IE. apply in_flat_map in IE. destruct IE as (v & X & Y). now rewrite (FN v e X Y).
      * intros e IE. now rewrite (FO e IE).
Qed.

Lemma add_step s h p d n f : inv s h -> allowed s (Add p d n f) -> exists h' r s', add_buffer h p d n f = Ok (h', r) /\ after s (Add p d n f) 0 s' [] /\ inv s' h'.
Proof.
  intros IV [I AL]. pose proof IV as (fo & Sh & Fu & Pp & Pr). unfold add_buffer. unfold after; cbn [logged next]. destruct (Nat.eqb_spec d 0) as [->|ND]; [cbn [orb]; eauto 10|]. destruct (Nat.eqb_spec n 0) as [->|NN]; [cbn [orb]; eauto 10|]. cbn [orb].
  destruct (full_alloc h (Chunk d 0 f) _ Fu) as (h1 & E1 & F1). rewrite E1.
  assert (X : exists R, full h1 ((fresh h, Chunk d 0 f) :: own d f ++ fcells fo ++ R) /\ R = mcells (if isuser f then mine s else remove1 d (mine s))).
  { destruct f as [| |k]; cbn [isuser own] in *; eexists; (split; [|reflexivity]); revert F1; apply full_perm; [| |permutes].
    - destruct AL as [AL|[AL|AL]]; [discriminate|contradiction|]. unfold mcells. rewrite (Permutation_map (fun b => (b, Block)) (remove1_perm d _ (proj1 (mine_nodup _ _ IV)) AL)). cbn [map]. permutes.
    - destruct AL as [AL|[AL|AL]]; [discriminate|contradiction|]. unfold mcells. rewrite (Permutation_map (fun b => (b, Block)) (remove1_perm d _ (proj1 (mine_nodup _ _ IV)) AL)). cbn [map]. permutes. }
  destruct X as (R & F2 & ->). destruct (chunk_step s h1 fo p _ d f _ F2 I Sh Pp Pr) as (h2 & fo' & E2 & F3 & S3 & P3 & R3). rewrite E2. cbn [obind]. do 3 eexists. split; [reflexivity|]. split; [split; reflexivity|]. exists fo'. cbn [pools rg mine]. split; [exact S3|]. split; [exact F3|]. now split.
Qed.
Lemma alloc_step s h p f : inv s h -> allowed s (Alloc p f) -> exists h' a s', ez_alloc h p f = Ok (h', a) /\ after s (Alloc p f) a s' [] /\ inv s' h'.
Proof.
  intros IV I. cbn [allowed] in I. pose proof IV as (fo & Sh & Fu & Pp & Pr). unfold ez_alloc. unfold after; cbn [logged next].
  destruct (full_alloc h (Chunk 0 0 Default) _ Fu) as (h1 & E1 & F1). rewrite E1. destruct (full_alloc h1 Block _ F1) as (h2 & E2 & F2). rewrite E2. set (x := fresh h) in *. set (d := fresh h1) in *.
  assert (F3 : full h2 ((x, Chunk 0 0 Default) :: (d, Block) :: fcells fo ++ mcells (mine s))) by (revert F2; apply full_perm; permutes).
  destruct (full_store _ _ _ (Chunk d 0 f) _ F3) as (h3 & E3 & F4). rewrite E3. cbn [obind].
  assert (F5 : full h3 ((x, Chunk d 0 f) :: own d f ++ fcells fo ++ mcells (if isuser f then d :: mine s else mine s))).
  { revert F4. apply full_perm. destruct f; cbn [own isuser mcells map]; fold (mcells (mine s)); permutes. }
  destruct (chunk_step s h3 fo p _ d f _ F5 I Sh Pp Pr) as (h4 & fo' & E4 & F6 & S3 & P3 & R3). rewrite E4. cbn [obind]. do 3 eexists. split; [reflexivity|]. split; [split; reflexivity|]. exists fo'. cbn [pools rg mine]. split; [exact S3|]. split; [exact F6|]. now split.
Qed.
Lemma malloc_step s h : inv s h -> exists h', alloc h Block = (fresh h, h') /\ inv (mkst (pools s) (rg s) (fresh h :: mine s)) h' /\ fresh h <> 0.
Proof.
  intros (fo & Sh & Fu & Pp & Pr). destruct (full_alloc h Block _ Fu) as (h1 & E1 & F1). exists h1. split; [exact E1|]. split; [|destruct Fu as ((_ & L & _) & _); lia]. exists fo. cbn [pools rg mine]. split; [exact Sh|]. split; [|now split]. revert F1. apply full_perm. cbn [mcells map]. fold (mcells (mine s)). permutes.
Qed.
Lemma strdup_step s h p n : inv s h -> allowed s (Strdup p n) -> exists h' a s', ez_strdup h p n = Ok (h', a) /\ after s (Strdup p n) a s' [] /\ inv s' h'.
Proof.
  intros IV I. cbn [allowed] in I. unfold ez_strdup. destruct (malloc_step s h IV) as (h1 & E1 & IV1 & NZ). rewrite E1. set (d := fresh h) in *.
  destruct (add_step _ h1 p d n Free IV1) as (h2 & r & s2 & E2 & [_ A2] & IV2); [split; [exact I|right; right; now left]|]. rewrite E2. cbn [obind]. exists h2, d, s2. split; [reflexivity|]. split; [|exact IV2]. unfold after; cbn [logged next]. split; [reflexivity|]. rewrite A2. cbn [next pools rg mine isuser]. rewrite (proj2 (Nat.eqb_neq _ _) NZ). cbn [orb].
  destruct (n =? 0); [reflexivity|]. f_equal. unfold remove1. cbn [filter]. rewrite Nat.eqb_refl. cbn [negb]. apply filter_true. intros b J. destruct (Nat.eqb_spec b d) as [->|]; [|reflexivity]. exfalso. destruct (mine_nodup _ _ IV1) as [D _]. cbn [mine] in D. apply NoDup_cons_iff in D. tauto.
Qed.
Lemma mfree_step s h d : inv s h -> allowed s (Mfree d) -> exists h', drop h d Free = Ok h' /\ inv (mkst (pools s) (rg s) (remove1 d (mine s))) h'.
Proof.
  intros IV I. cbn [allowed] in I. pose proof IV as (fo & Sh & Fu & Pp & Pr).
  assert (F1 : full h (own d Free ++ (fcells fo ++ mcells (remove1 d (mine s))))). { revert Fu. apply full_perm. unfold mcells. rewrite (Permutation_map (fun b => (b, Block)) (remove1_perm d _ (proj1 (mine_nodup _ _ IV)) I)). cbn [map own]. permutes. }
  destruct (drop_ok h d Free _ (proj1 (proj2 F1))) as (h' & E & H & G & K). exists h'. split; [exact E|]. exists fo. cbn [pools rg mine]. split; [exact Sh|]. split; [exact (full_gone _ _ _ _ F1 H G K)|]. now split.
Qed.
Theorem step_ok s h o : inv s h -> allowed s o -> exists N, forall fuel, N <= fuel -> exists h' a log s', step fuel h o = Ok (h', a, log) /\ after s o a s' log /\ inv s' h'.
Proof.
  intros IV AL. destruct o as [p|p f|p d n f|p n| |d|r].
  - exists 0. intros fuel _. destruct (init_step s h p IV AL) as (h' & a & s' & E & A & B). cbn [step]. rewrite E. cbn [obind]. exists h', a, [], s'. now split.
  - exists 0. intros fuel _. destruct (alloc_step s h p f IV AL) as (h' & a & s' & E & A & B). cbn [step]. rewrite E. cbn [obind]. exists h', a, [], s'. now split.
  - exists 0. intros fuel _. destruct (add_step s h p d n f IV AL) as (h' & r & s' & E & A & B). cbn [step]. rewrite E. cbn [obind]. exists h', 0, [], s'. now split.
  - exists 0. intros fuel _. destruct (strdup_step s h p n IV AL) as (h' & a & s' & E & A & B). cbn [step]. rewrite E. cbn [obind]. exists h', a, [], s'. now split.
  - exists 0. intros fuel _. destruct (malloc_step s h IV) as (h' & E & A & _). cbn [step]. rewrite E. eexists _, _, _, _. split; [reflexivity|]. split; [split; reflexivity|exact A].
  - exists 0. intros fuel _. destruct (mfree_step s h d IV AL) as (h' & E & A). cbn [step]. rewrite E. cbn [obind]. eexists _, _, _, _. split; [reflexivity|]. split; [split; reflexivity|exact A].
  - destruct (destroy_step s h r IV AL) as (N & Q). exists N. intros fuel LE. destruct (Q fuel LE) as (h' & log & s' & E & A & B). cbn [step]. rewrite E. cbn [obind]. exists h', 0, log, s'. now split.
Qed.
