(** Many queues in one memory. *)
From Coq Require Import Permutation.
From Verif Require Import Prelude AmemModel AmemProofs HeapModel Perm TailqModel TailqSpec TailqProofs.
Local Open Scope nat_scope.

Definition oth (N q : nat) : list nat := seq 0 q ++ seq (S q) (N - S q).
Lemma oth_in N q p : q < N -> (In p (oth N q) <-> p < N /\ p <> q).
Proof. intros L. unfold oth. rewrite in_app_iff, !in_seq. lia. Qed.
Lemma oth_split N q : q < N -> Permutation (seq 0 N) (q :: oth N q).
Proof. intros L. replace (seq 0 N) with (seq 0 q ++ q :: seq (S q) (N - S q)). - unfold oth. perm. - replace N with (q + S (N - S q)) at 2 by lia. rewrite seq_app. reflexivity. Qed.
Lemma flat_oth {A} (f : nat -> list A) N q : q < N -> Permutation (flat_map f (seq 0 N)) (f q ++ flat_map f (oth N q)).
Proof. intros L. rewrite (Permutation_flat_map f (oth_split N q L)). reflexivity. Qed.
Lemma flat_ext {A} (f g : nat -> list A) l : (forall x, In x l -> f x = g x) -> flat_map f l = flat_map g l.
Proof. induction l as [|x l IH]; intros H; [reflexivity|]. cbn [flat_map]. rewrite (H x) by now left. rewrite IH; [reflexivity|]. intros y J. apply H. now right. Qed.
Definition setl (L : nat -> list el) (q : nat) (l : list el) : nat -> list el := fun p => if p =? q then l else L p.
Lemma setl_same L q l : setl L q l q = l. Proof. unfold setl. now rewrite Nat.eqb_refl. Qed.
Lemma setl_other L q l p : p <> q -> setl L q l p = L p. Proof. intros D. unfold setl. apply Nat.eqb_neq in D. now rewrite D. Qed.
Lemma set_at Q q l : set Q q l q = l. Proof. unfold set. now rewrite Nat.eqb_refl. Qed.
Lemma set_off Q q l p : p <> q -> set Q q l p = Q p. Proof. intros D. unfold set. apply Nat.eqb_neq in D. now rewrite D. Qed.
Definition bl (L : nat -> list el) (q : nat) : list (nat * entry) := qb (First q) (L q) 0.
Definition dmap (b : list (nat * entry)) : list el := map (fun x => (fst x, data (snd x))) b.
Section M.
Variable N : nat.
Definition all (m : mem) (L : nat -> list el) (R : list (nat * entry)) : Prop :=
  owns (heap m) (flat_map (bl L) (seq 0 N) ++ R) /\ forall q, q < N -> heads m q = (hdt (L q) 0, endslot (First q) (L q)).
Lemma all_perm m L R R' : all m L R -> Permutation R R' -> all m L R'.
Proof. intros [O H] P. split; [|exact H]. apply (owns_perm _ _ _ O). now apply Permutation_app_head. Qed.
Lemma focus m L R q : q < N -> all m L R -> rep m q (L q) (flat_map (bl L) (oth N q) ++ R).
Proof. intros B [O H]. split; [|now apply H]. apply (owns_perm _ _ _ O). rewrite (flat_oth (bl L) N q B). unfold bl at 1. perm. Qed.
Lemma bl_oth L q l : q < N -> flat_map (bl (setl L q l)) (oth N q) = flat_map (bl L) (oth N q).
Proof. intros B. apply flat_ext. intros p J. apply oth_in in J as [_ J]; [|exact B]. unfold bl. now rewrite setl_other. Qed.
Lemma unfocus m m' L R R' q l : q < N -> all m L R -> same q m m' -> rep m' q l (flat_map (bl L) (oth N q) ++ R') -> all m' (setl L q l) R'.
Proof.
  intros B [_ H] S [O H']. split.
  - apply (owns_perm _ _ _ O). rewrite (flat_oth (bl (setl L q l)) N q B), (bl_oth L q l B). unfold bl at 2. rewrite setl_same. perm.
  - intros p Bp. destruct (Nat.eq_dec p q) as [-> | D]; [now rewrite setl_same|]. rewrite setl_other, (S p D) by exact D. now apply H.
Qed.
Lemma dmap_flat L l : dmap (flat_map (bl L) l) = flat_map L l.
Proof. unfold dmap. induction l as [|q l IH]; [reflexivity|]. cbn [flat_map]. rewrite map_app, IH. f_equal. apply qb_data. Qed.
Lemma setl_flat L q l : q < N -> Permutation (flat_map (setl L q l) (seq 0 N)) (l ++ flat_map L (oth N q)).
Proof. intros B. rewrite (flat_oth (setl L q l) N q B), setl_same. apply Permutation_app_head. erewrite flat_ext; [reflexivity|]. intros p J. apply oth_in in J as [_ J]; [|exact B]. now apply setl_other. Qed.

(** the lists, the memory and the program's entries with their data *)
Definition inv (E : list el) (m : mem) (Q : lists) : Prop := exists L R, all m L R /\ (forall q, q < N -> map fst (L q) = Q q) /\ Permutation (flat_map L (seq 0 N) ++ dmap R) E.
Lemma idle_in E m L R Q e : all m L R -> (forall q, q < N -> map fst (L q) = Q q) -> Permutation (flat_map L (seq 0 N) ++ dmap R) E -> idle N (map fst E) Q e -> exists c R', Permutation R ((e, c) :: R').
Proof.
  intros A M P [J I]. assert (X : In e (map fst R)).
  { apply (Permutation_in _ (Permutation_sym (Permutation_map fst P))) in J. rewrite map_app in J. apply in_app_or in J as [J|J].
    - apply in_map_iff in J as ([x v] & <- & J). cbn [fst] in *. apply in_flat_map in J as (q & Jq & J). apply in_seq in Jq. destruct (I q); [lia|]. rewrite <- M by lia. now apply (in_map fst) in J.
    - unfold dmap in J. rewrite map_map in J. exact J. }
  apply in_map_iff in X as ([x c] & <- & X). cbn [fst]. apply in_split in X as (R1 & R2 & ->). exists c, (R1 ++ R2). perm.
Qed.
Lemma ins_step E m Q q e l' (B : q < N) L R c R' :
  all m L R -> (forall q, q < N -> map fst (L q) = Q q) -> Permutation (flat_map L (seq 0 N) ++ dmap R) E -> Permutation R ((e, c) :: R') ->
  forall m', same q m m' -> rep m' q l' (flat_map (bl L) (oth N q) ++ R') -> Permutation l' ((e, data c) :: L q) -> inv E m' (set Q q (map fst l')).
Proof.
  intros A M P PR m' S' A' Pl. exists (setl L q l'), R'. split; [now apply unfocus with (m := m) (R := R)|]. split.
  - intros p Bp. destruct (Nat.eq_dec p q) as [-> | D]; [now rewrite setl_same, set_at|]. rewrite setl_other, set_off by exact D. now apply M.
  - rewrite <- P, (setl_flat L q l' B), (flat_oth L N q B), Pl. unfold dmap. rewrite PR. cbn [map fst snd]. perm.
Qed.
Lemma map_split {A B} (f : A -> B) l a x b : map f l = a ++ x :: b -> exists l1 y l2, l = l1 ++ y :: l2 /\ map f l1 = a /\ f y = x /\ map f l2 = b.
Proof.
  revert a. induction l as [|y l IH]; intros a H; [now destruct a|]. destruct a as [|z a]; cbn [app map] in H.
  - exists [], y, l. repeat split; congruence.
  - assert (H1 : f y = z) by congruence. assert (H2 : map f l = a ++ x :: b) by congruence. destruct (IH _ H2) as (l1 & w & l2 & -> & E1 & E2 & E3). exists (y :: l1), w, l2. repeat split; cbn [map]; congruence.
Qed.
Lemma inv_ext E m Q Q' : (forall q, q < N -> Q q = Q' q) -> inv E m Q -> inv E m Q'.
Proof. intros X (L & R & A & M & P). exists L, R. split; [exact A|]. split; [|exact P]. intros q B. rewrite M by exact B. now apply X. Qed.
Lemma focus2 m L R R' q : q < N -> all m L R -> Permutation R R' -> rep m q (L q) (flat_map (bl L) (oth N q) ++ R').
Proof. intros B A P. apply focus; [exact B|]. now apply all_perm with R. Qed.
Lemma step E m Q o Q' : inv E m Q -> does N (map fst E) Q o Q' -> exists m', exec m o = Ok m' /\ inv E m' Q'.
Proof.
  intros (L & R & A & M & P) D. inversion D; subst; cbn [exec].
  - destruct (idle_in _ _ _ _ _ _ A M P H0) as (c & R' & PR). destruct (insert_head_ok m q (L q) e c (flat_map (bl L) (oth N q) ++ R')) as (m' & E1 & A' & S').
    { apply at_perm with (R := flat_map (bl L) (oth N q) ++ (e, c) :: R'); [now apply focus2 with R|perm]. }
    exists m'. split; [exact E1|]. rewrite <- (M q H). change (e :: map fst (L q)) with (map fst ((e, data c) :: L q)). eapply ins_step; eauto.
  - destruct (idle_in _ _ _ _ _ _ A M P H0) as (c & R' & PR). destruct (insert_tail_ok m q (L q) e c (flat_map (bl L) (oth N q) ++ R')) as (m' & E1 & A' & S').
    { apply at_perm with (R := flat_map (bl L) (oth N q) ++ (e, c) :: R'); [now apply focus2 with R|perm]. }
    exists m'. split; [exact E1|]. rewrite <- (M q H). change [e] with (map fst [(e, data c)]). rewrite <- map_app. eapply ins_step; eauto. perm.
  - destruct (idle_in _ _ _ _ _ _ A M P H0) as (c & R' & PR). rewrite <- (M q H) in H1. apply map_split in H1 as (l1 & [x v] & l2 & EL & <- & Ex & <-). cbn [fst] in Ex. subst x.
    destruct (insert_after_ok m q l1 a v l2 e c (flat_map (bl L) (oth N q) ++ R')) as (m' & E1 & A' & S').
    { rewrite <- EL. apply at_perm with (R := flat_map (bl L) (oth N q) ++ (e, c) :: R'); [now apply focus2 with R|perm]. }
    exists m'. split; [exact E1|]. change (a :: e :: map fst l2) with (map fst ((a, v) :: (e, data c) :: l2)). rewrite <- map_app. eapply ins_step; eauto. rewrite EL. perm.
  - destruct (idle_in _ _ _ _ _ _ A M P H0) as (c & R' & PR). rewrite <- (M q H) in H1. apply map_split in H1 as (l1 & [x v] & l2 & EL & <- & Ex & <-). cbn [fst] in Ex. subst x.
    destruct (insert_before_ok m q l1 a v l2 e c (flat_map (bl L) (oth N q) ++ R')) as (m' & E1 & A' & S').
    { rewrite <- EL. apply at_perm with (R := flat_map (bl L) (oth N q) ++ (e, c) :: R'); [now apply focus2 with R|perm]. }
    exists m'. split; [exact E1|]. change (e :: a :: map fst l2) with (map fst ((e, data c) :: (a, v) :: l2)). rewrite <- map_app. eapply ins_step; eauto. rewrite EL. perm.
  - rewrite <- (M q H) in H0. apply map_split in H0 as (l1 & [x v] & l2 & EL & <- & Ex & <-). cbn [fst] in Ex. subst x.
    pose proof (focus m L R q H A) as F. rewrite EL in F. destruct (remove_ok _ _ _ _ _ _ _ F) as (m' & c & E1 & A' & Ed & S'). exists m'. split; [exact E1|]. rewrite <- map_app. exists (setl L q (l1 ++ l2)), ((e, c) :: R). split; [|split].
    + apply unfocus with (m := m) (R := R); auto. apply at_perm with (1 := A'). perm.
    + intros p Bp. destruct (Nat.eq_dec p q) as [-> | Dp]; [now rewrite setl_same, set_at|]. rewrite setl_other, set_off by exact Dp. now apply M.
    + rewrite <- P, (setl_flat L q _ H), (flat_oth L N q H), EL. unfold dmap. cbn [map fst snd]. rewrite Ed. perm.
  - (* concat *)
    assert (J : In q (oth N p)) by (apply oth_in; auto). destruct (in_split _ _ J) as (o1 & o2 & EO).
    assert (X : forall x, In x (o1 ++ o2) -> x < N /\ x <> p /\ x <> q).
    { intros x Jx. assert (Jo : In x (oth N p)). { rewrite EO. apply in_app_or in Jx. apply in_or_app. destruct Jx; [now left|right; now right]. } apply oth_in in Jo as [B1 B2]; [|exact H]. repeat split; auto. intros ->.
      assert (ND : NoDup (p :: oth N p)) by (apply (Permutation_NoDup (oth_split N p H)), seq_NoDup). inversion ND as [|? ? _ ND']. rewrite EO in ND'. now apply NoDup_remove_2 in ND'. }
    assert (S3 : Permutation (seq 0 N) (p :: q :: o1 ++ o2)) by (rewrite (oth_split N p H), EO; perm).
    set (L' := setl (setl L p (L p ++ L q)) q []).
    assert (Lp : L' p = L p ++ L q) by (unfold L'; rewrite setl_other, setl_same by exact H1; reflexivity).
    assert (Lq : L' q = []) by (unfold L'; now rewrite setl_same).
    assert (Lo : forall x, x <> p -> x <> q -> L' x = L x) by (intros x X1 X2; unfold L'; rewrite !setl_other by assumption; reflexivity).
    assert (FB : flat_map (bl L') (o1 ++ o2) = flat_map (bl L) (o1 ++ o2)) by (apply flat_ext; intros x Jx; apply X in Jx as (_ & X1 & X2); unfold bl; now rewrite Lo).
    assert (FL : flat_map L' (o1 ++ o2) = flat_map L (o1 ++ o2)) by (apply flat_ext; intros x Jx; apply X in Jx as (_ & X1 & X2); now rewrite Lo).
    destruct (concat_ok m p q (L p) (L q) (flat_map (bl L) (o1 ++ o2) ++ R) H1) as (m' & E1 & [O' H'] & Hq & Ho).
    { destruct A as [O Hh]. split; [|now apply Hh]. apply (owns_perm _ _ _ O). rewrite (Permutation_flat_map (bl L) S3). cbn [flat_map]. unfold bl at 1 2. perm. }
    { now apply A. }
    exists m'. split; [exact E1|]. exists L', R. split; [split|split].
    + apply (owns_perm _ _ _ O'). rewrite (Permutation_flat_map (bl L') S3). cbn [flat_map]. rewrite FB. unfold bl at 2 3. rewrite Lp, Lq. cbn [qb]. perm.
    + intros x Bx. destruct (Nat.eq_dec x q) as [-> | D1]; [rewrite Lq; exact Hq|]. destruct (Nat.eq_dec x p) as [-> | D2]; [rewrite Lp; exact H'|]. rewrite (Ho x D2 D1), (Lo x D2 D1). now apply A.
    + intros x Bx. destruct (Nat.eq_dec x q) as [-> | D1]; [now rewrite Lq, set_at|]. rewrite set_off by exact D1. destruct (Nat.eq_dec x p) as [-> | D2]; [rewrite Lp, set_at, map_app, !M by assumption; reflexivity|]. rewrite set_off, (Lo x D2 D1) by exact D2. now apply M.
    + rewrite <- P, (Permutation_flat_map L' S3), (Permutation_flat_map L S3). cbn [flat_map]. rewrite FL, Lp, Lq. perm.
Qed.
Lemma steps E l : forall m Q Q', inv E m Q -> history N (map fst E) Q l Q' -> exists m', execs m l = Ok m' /\ inv E m' Q'.
Proof.
  induction l as [|o l IH]; intros m Q Q' V H; inversion H; subst; cbn [execs]; [now exists m|]. destruct (step _ _ _ _ _ V H3) as (m1 & E1 & V1). rewrite E1. cbn [obind]. eapply IH; eauto.
Qed.
Lemma lastof_eq l : lastof l = last (map fst l) 0. Proof. reflexivity. Qed.
Lemma inv_shows E m Q q : inv E m Q -> q < N -> shows m q (Q q).
Proof.
  intros (L & R & A & M & _) B. pose proof (focus m L R q B A) as F. pose proof (first_ok _ _ _ _ F) as F1. pose proof (last_ok _ _ _ _ F) as F2. rewrite <- (M q B). unfold shows.
  split; [rewrite (empty_ok _ _ _ _ F); now destruct (L q)|]. split; [exact F1|]. split; [exact F2|]. rewrite map_length. split; [|split].
  - intros fuel G. rewrite F1. now apply (foreach_ok m q _ (L q) [] fuel F).
  - intros fuel e G Ee. rewrite F2 in Ee. assert (X : e = lastof (L q)) by congruence. subst e. apply (reverse_ok m q (flat_map (bl L) (oth N q) ++ R) (L q) [] fuel); [now rewrite app_nil_r|exact G].
  - intros a e r X. apply map_split in X as (l1 & [x v] & l2 & EL & <- & <- & <-). rewrite EL in F. split; [apply (next_ok _ _ _ _ _ _ _ F)|apply (prev_ok _ _ _ _ _ _ _ F)].
Qed.
Lemma inv_data E m Q e v : inv E m Q -> In (e, v) E -> exists c, get m e = Ok c /\ data c = v.
Proof.
  intros (L & R & [O _] & M & P) J. apply (Permutation_in _ (Permutation_sym P)) in J. rewrite <- (dmap_flat L) in J. unfold dmap in J. rewrite <- map_app in J. apply in_map_iff in J as ([x c] & X & J). cbn [fst snd] in X. assert (x = e) by congruence. subst x. exists c. split; [now apply (owns_in _ _ _ _ O)|congruence].
Qed.
Lemma inv_size E m Q : inv E m Q -> length (blocks (heap m)) = length E.
Proof. intros (L & R & [O _] & M & P). rewrite (owns_size _ _ O), <- (Permutation_length P), <- (dmap_flat L). unfold dmap. now rewrite <- map_app, map_length. Qed.
Lemma inits_heap n m : heap (inits n m) = heap m. Proof. induction n; [reflexivity|]. exact IHn. Qed.
Lemma inits_heads n m q : q < n -> heads (inits n m) q = (0, First q).
Proof. induction n as [|n IH]; intros B; [lia|]. cbn [inits]. unfold tq_init. destruct (Nat.eq_dec q n) as [-> | D]; [apply set_same|]. rewrite (same_set n _ _ q D). apply IH. lia. Qed.
Lemma inv_start m E : owns (heap m) E -> inv (dmap E) (inits N m) empty.
Proof.
  intros O. exists (fun _ => []), E. assert (Z : forall A (l : list nat), flat_map (fun _ => @nil A) l = []) by (induction l; auto). split; [split|split].
  - rewrite inits_heap. erewrite flat_ext, Z; [exact O|]. reflexivity.
  - intros q B. now apply inits_heads.
  - reflexivity.
  - now rewrite Z.
Qed.
End M.
Lemma entries_ok pick : good pick -> forall vs h L, owns h L -> exists B, owns (snd (entries pick h vs)) (B ++ L) /\ dmap B = rev (combine (fst (entries pick h vs)) vs) /\ length (fst (entries pick h vs)) = length vs.
Proof.
  intros G. induction vs as [|v vs IH]; intros h L O; [exists []; auto|]. cbn [entries]. destruct (owns_new pick h (mkentry 0 (First 0) v) L G O) as (e & h1 & E & O1). rewrite E. destruct (IH _ _ O1) as (B & O2 & D & LE). destruct (entries pick h1 vs) as [es h2]. cbn [fst snd] in *. exists (B ++ [(e, mkentry 0 (First 0) v)]). split; [apply (owns_perm _ _ _ O2); perm|]. split; [|cbn [length]; congruence]. unfold dmap in *. rewrite map_app. cbn [map fst snd data combine rev]. now rewrite D.
Qed.
