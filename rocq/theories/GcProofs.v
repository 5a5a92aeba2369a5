(** Proofs about GcModel.v: the tricolour invariant. *)
From Verif Require Import Prelude Sep GcModel.
From Coq Require Import Permutation.

Definition tracked (g : gc) : list nat := black g ++ grey g ++ white g.
(** [pre] is the part of the grey list that was scanned in this cycle, [post] the rest; [unp] contains every object that was unprotected *)
Record tri (kids : nat -> list nat) (unp : list nat) (pre post : list nat) (g : gc) : Prop := {
  t_grey : grey g = pre ++ post;
  t_nd : NoDup (tracked g);
  t_nz : ~ In 0 (tracked g);
  t_white : forall x, In x (white g) -> is_white g x = true;
  t_done : forall x, In x (black g ++ pre) -> is_white g x = false;
  t_prot : forall x, In x (black g ++ white g) -> pb g x = false;
  t_stale : forall x, In x (grey g) -> pb g x = true \/ In x unp \/ is_white g x = false;
  t_pre : forall x, In x pre -> pb g x = true \/ In x unp;
  t_edge : forall x y, In x (black g ++ pre) -> In y (kids x) -> In y (black g ++ grey g);
  t_closed : forall x y, In x (tracked g) -> In y (kids x) -> In y (tracked g) }.

Lemma del_notin x l : ~ In x l -> del x l = l.
Proof. unfold del. induction l as [|y l IH]; [reflexivity|]. intros N. cbn [filter]. destruct (Nat.eqb_spec y x) as [->|]; [exfalso; apply N; now left|]. cbn [negb]. rewrite IH; [reflexivity|]. intros I. apply N. now right. Qed.
Lemma del_mid x a b : ~ In x a -> ~ In x b -> del x (a ++ x :: b) = a ++ b.
Proof. intros A B. unfold del. rewrite filter_app. cbn [filter]. rewrite Nat.eqb_refl. cbn [negb]. fold (del x a) (del x b). now rewrite !del_notin. Qed.
Lemma in_del x y l : In y (del x l) <-> In y l /\ y <> x.
Proof. unfold del. rewrite filter_In. destruct (Nat.eqb_spec y x); cbn [negb]; intuition congruence. Qed.
Lemma nodup_app {A} (a b : list A) : NoDup (a ++ b) <-> NoDup a /\ NoDup b /\ forall x, In x a -> ~ In x b.
Proof.
  induction a as [|y a IH]; cbn [app]; [split; [intros H; split; [constructor|split; [exact H|intros x []]]|tauto]|]. rewrite !NoDup_cons_iff, IH, in_app_iff. cbn [In]. split.
  - intros (N & A1 & A2 & A3). split; [tauto|]. split; [exact A2|]. intros x [<-|I]; [tauto|now apply A3].
  - intros ((N & A1) & A2 & A3). split; [|split; [exact A1|split; [exact A2|auto]]]. intros [I|I]; [tauto|]. exact (A3 y (or_introl eq_refl) I).
Qed.
Lemma nodup_mid {A} (a b : list A) x : NoDup (a ++ x :: b) -> ~ In x a /\ ~ In x b.
Proof. intros D. apply NoDup_remove_2 in D. rewrite in_app_iff in D. tauto. Qed.
Lemma is_white_clear g x y : is_white (clear_white g x) y = if (y =? x)%nat then false else is_white g y.
Proof. unfold is_white, clear_white, set_wb, setf. cbn [wb one]. destruct (y =? x)%nat; [|reflexivity]. destruct (one g); reflexivity. Qed.
Lemma hd_in (l : list nat) : hd 0 l <> 0 -> In (hd 0 l) l.
Proof. destruct l; cbn; [contradiction|now left]. Qed.

Definition same (g g' : gc) : Prop := enabled g' = enabled g /\ allocs g' = allocs g /\ mps g' = mps g /\ before g' = before g /\ scan g' = scan g /\ (forall x, pb g' x = pb g x) /\ log g' = log g.
Lemma same_refl g : same g g.
Proof. repeat split. Qed.
Lemma same_trans g h k : same g h -> same h k -> same g k.
Proof. intros (A1 & A2 & A3 & A4 & A5 & A6 & A7) (B1 & B2 & B3 & B4 & B5 & B6 & B7). split; [congruence|]. split; [congruence|]. split; [congruence|]. split; [congruence|]. split; [congruence|]. split; [intros x; now rewrite B6|congruence]. Qed.

(** shading one object *)
Lemma mark_ok kids unp pre post g y : tri kids unp pre post g -> In y (tracked g) ->
  exists g' post', gc_mark g y = Ok g' /\ tri kids unp pre post' g' /\ same g g' /\ black g' = black g /\ In y (black g' ++ grey g') /\ incl (black g ++ grey g) (black g' ++ grey g') /\ incl (black g' ++ grey g') (y :: black g ++ grey g) /\
    Permutation (tracked g') (tracked g) /\ length post' + length (white g') = length post + length (white g) /\ (forall x, is_white g x = false -> is_white g' x = false) /\
    (post <> [] -> (is_white g (hd 0 post) = false \/ pb g (hd 0 post) = true \/ y <> hd 0 post) -> hd 0 post' = hd 0 post /\ post' <> []).
Proof.
  intros T I. pose proof (t_nz _ _ _ _ _ T) as NZ. assert (Y0 : y <> 0) by (intros ->; contradiction). unfold gc_mark. rewrite (proj2 (Nat.eqb_neq _ _) Y0). cbn [negb guard obind].
  assert (NOP : In y (black g ++ grey g) -> exists g' post', Ok g = Ok g' /\ tri kids unp pre post' g' /\ same g g' /\ black g' = black g /\ In y (black g' ++ grey g') /\ incl (black g ++ grey g) (black g' ++ grey g') /\ incl (black g' ++ grey g') (y :: black g ++ grey g) /\
    Permutation (tracked g') (tracked g) /\ length post' + length (white g') = length post + length (white g) /\ (forall x, is_white g x = false -> is_white g' x = false) /\ (post <> [] -> (is_white g (hd 0 post) = false \/ pb g (hd 0 post) = true \/ y <> hd 0 post) -> hd 0 post' = hd 0 post /\ post' <> [])).
  { intros J. exists g, post. split; [reflexivity|]. split; [exact T|]. split; [apply same_refl|]. split; [reflexivity|]. split; [exact J|]. split; [apply incl_refl|]. split; [apply incl_tl, incl_refl|]. split; [reflexivity|]. split; [reflexivity|]. split; [trivial|]. intros N _. now split. }
  pose proof T as [Tg Tnd _ Tw Td Tp Ts Tpre Te Tc].
  destruct (pb g y) eqn:PB; cbn [negb andb].
  { apply NOP. unfold tracked in I. rewrite !in_app_iff in *. destruct I as [I|[I|I]]; [tauto|tauto|]. exfalso. rewrite Tp in PB; [discriminate|]. apply in_or_app. now right. }
  destruct (is_white g y) eqn:IW.
  2:{ apply NOP. unfold tracked in I. rewrite !in_app_iff in *. destruct I as [I|[I|I]]; [tauto|tauto|]. exfalso. rewrite Tw in IW; [discriminate|exact I]. }
  assert (NB : ~ In y (black g)) by (intros J; rewrite Td in IW; [discriminate|]; apply in_or_app; now left).
  assert (NP : ~ In y pre) by (intros J; rewrite Td in IW; [discriminate|]; apply in_or_app; now right).
  unfold unlink, set_lists, clear_white, set_wb. cbn [enabled allocs mps before one black grey white scan wb pb log]. rewrite (del_notin _ _ NB).
  assert (SM : forall b y' w, same g (mkgc (enabled g) (allocs g) (mps g) (before g) (one g) b y' w (scan g) (setf (wb g) y (negb (one g))) (pb g) (log g))) by (intros; repeat split).
  assert (IWc : forall b y' w x, is_white (mkgc (enabled g) (allocs g) (mps g) (before g) (one g) b y' w (scan g) (setf (wb g) y (negb (one g))) (pb g) (log g)) x = if (x =? y)%nat then false else is_white g x).
  { intros. unfold is_white. cbn [wb one]. unfold setf. destruct (x =? y)%nat; [|reflexivity]. destruct (one g); reflexivity. }
  unfold tracked in I. rewrite !in_app_iff in I. destruct I as [I|[I|I]]; [contradiction| |].
  - rewrite Tg, in_app_iff in I. destruct I as [I|I]; [contradiction|]. apply in_split in I. destruct I as (p1 & p2 & ->).
    pose proof Tnd as Tnd'. unfold tracked in Tnd'. rewrite Tg in Tnd'.
    assert (X : NoDup ((black g ++ pre ++ p1) ++ y :: (p2 ++ white g))) by (eapply Permutation_NoDup; [|exact Tnd']; permutes). apply nodup_mid in X. rewrite !in_app_iff in X.
    assert (DG : del y (grey g) = pre ++ p1 ++ p2) by (rewrite Tg, !app_assoc; apply del_mid; rewrite ?in_app_iff; tauto). rewrite DG. rewrite (del_notin y (white g)) by tauto.
    assert (PM : Permutation (black g ++ ((pre ++ p1 ++ p2) ++ [y]) ++ white g) (tracked g)) by (unfold tracked; rewrite Tg; permutes).
    assert (PG : Permutation ((pre ++ p1 ++ p2) ++ [y]) (grey g)) by (rewrite Tg; permutes).
    assert (IG : forall x, In x ((pre ++ p1 ++ p2) ++ [y]) <-> In x (grey g)) by (intros x; split; apply Permutation_in; [exact PG|now symmetry]).
    eexists _, (p1 ++ p2 ++ [y]). split; [reflexivity|]. split; [constructor|]; cbn [black grey white pb]; unfold tracked; cbn [black grey white].
    + now rewrite <- !app_assoc.
    + eapply Permutation_NoDup; [symmetry; exact PM|exact Tnd].
    + intros J. apply NZ. eapply Permutation_in; [exact PM|exact J].
    + intros x J. rewrite IWc. destruct (Nat.eqb_spec x y) as [->|]; [exfalso; tauto|now apply Tw].
    + intros x J. rewrite IWc. destruct (x =? y)%nat; [reflexivity|now apply Td].
    + exact Tp.
    + intros x J. rewrite IWc. destruct (x =? y)%nat; [tauto|]. apply Ts. now apply IG.
    + exact Tpre.
    + intros x z J K. rewrite in_app_iff, IG, <- in_app_iff. eapply Te; eassumption.
    + intros x z J K. eapply Permutation_in; [symmetry; exact PM|]. eapply Tc; [|exact K]. eapply Permutation_in; [exact PM|exact J].
    + split; [apply SM|]. split; [reflexivity|]. split; [rewrite !in_app_iff; cbn [In]; tauto|]. split; [intros x J; rewrite in_app_iff, IG, <- in_app_iff; exact J|]. split; [intros x J; rewrite in_app_iff, IG, <- in_app_iff in J; now right|]. split; [exact PM|]. split; [rewrite !app_length; cbn [length]; lia|]. split; [intros x W; rewrite IWc; now destruct (x =? y)%nat|].
      intros _ C. destruct p1 as [|e p1]; cbn [app hd] in *; [|split; [reflexivity|discriminate]]. exfalso. destruct C as [C|[C|C]]; congruence.
  - apply in_split in I. destruct I as (w1 & w2 & W). pose proof Tnd as Tnd'. unfold tracked in Tnd'. rewrite W in Tnd'.
    assert (X : NoDup ((black g ++ grey g ++ w1) ++ y :: w2)) by (eapply Permutation_NoDup; [|exact Tnd']; permutes). apply nodup_mid in X. rewrite !in_app_iff in X.
    rewrite (del_notin y (grey g)) by tauto. assert (DW : del y (white g) = w1 ++ w2) by (rewrite W; apply del_mid; tauto). rewrite DW.
    assert (PM : Permutation (black g ++ (grey g ++ [y]) ++ w1 ++ w2) (tracked g)) by (unfold tracked; rewrite W; permutes).
    assert (IWw : forall x, In x (w1 ++ w2) -> In x (white g) /\ x <> y). { intros x J. rewrite W, !in_app_iff. rewrite in_app_iff in J. cbn [In]. split; [tauto|]. intros ->. tauto. }
    eexists _, (post ++ [y]). split; [reflexivity|]. split; [constructor|]; cbn [black grey white pb]; unfold tracked; cbn [black grey white].
    + now rewrite Tg, <- app_assoc.
    + eapply Permutation_NoDup; [symmetry; exact PM|exact Tnd].
    + intros J. apply NZ. eapply Permutation_in; [exact PM|exact J].
    + intros x J. rewrite IWc. apply IWw in J. destruct J as [J NE]. rewrite (proj2 (Nat.eqb_neq _ _) NE). now apply Tw.
    + intros x J. rewrite IWc. destruct (x =? y)%nat; [reflexivity|now apply Td].
    + intros x J. apply Tp. rewrite in_app_iff in *. destruct J as [J|J]; [tauto|]. apply IWw in J. tauto.
    + intros x J. rewrite IWc. destruct (Nat.eqb_spec x y) as [->|NE]; [tauto|]. rewrite in_app_iff in J. cbn [In] in J. destruct J as [J|[J|[]]]; [now apply Ts|congruence].
    + exact Tpre.
    + intros x z J K. pose proof (Te x z J K) as Q. rewrite !in_app_iff in *. tauto.
    + intros x z J K. eapply Permutation_in; [symmetry; exact PM|]. eapply Tc; [|exact K]. eapply Permutation_in; [exact PM|exact J].
    + split; [apply SM|]. split; [reflexivity|]. split; [rewrite !in_app_iff; cbn [In]; tauto|]. split; [intros x J; rewrite !in_app_iff in *; tauto|]. split; [intros x J; rewrite !in_app_iff in J; cbn [In] in *; rewrite in_app_iff; intuition congruence|]. split; [exact PM|]. split; [rewrite W, !app_length; cbn [length]; lia|]. split; [intros x Wx; rewrite IWc; now destruct (x =? y)%nat|].
      intros N _. destruct post as [|e post]; [contradiction|]. cbn [app hd]. split; [reflexivity|discriminate].
Qed.
Lemma mark_all_ok kids unp pre : forall l post g, tri kids unp pre post g -> (forall y, In y l -> In y (tracked g)) -> 
  exists g' post', mark_all g l = Ok g' /\ tri kids unp pre post' g' /\ same g g' /\ black g' = black g /\ (forall y, In y l -> In y (black g' ++ grey g')) /\ incl (black g ++ grey g) (black g' ++ grey g') /\ incl (black g' ++ grey g') (l ++ black g ++ grey g) /\
    Permutation (tracked g') (tracked g) /\ length post' + length (white g') = length post + length (white g) /\ (forall x, is_white g x = false -> is_white g' x = false) /\
    (post <> [] -> (is_white g (hd 0 post) = false \/ pb g (hd 0 post) = true \/ ~ In (hd 0 post) l) -> hd 0 post' = hd 0 post /\ post' <> []).
Proof.
  induction l as [|y l IH]; intros post g T I.
  - exists g, post. cbn [mark_all app]. split; [reflexivity|]. split; [exact T|]. split; [apply same_refl|]. split; [reflexivity|]. split; [intros y []|]. split; [apply incl_refl|]. split; [apply incl_refl|]. split; [reflexivity|]. split; [reflexivity|]. split; [trivial|]. intros N _. now split.
  - destruct (mark_ok _ _ _ _ _ _ T (I y (or_introl eq_refl))) as (g1 & p1 & E1 & T1 & S1 & B1 & Y1 & U1 & D1 & P1 & L1 & W1 & H1). cbn [mark_all]. rewrite E1. cbn [obind].
    destruct (IH p1 g1 T1) as (g2 & p2 & E2 & T2 & S2 & B2 & Y2 & U2 & D2 & P2 & L2 & W2 & H2). { intros z J. eapply Permutation_in; [symmetry; exact P1|]. apply I. now right. }
    exists g2, p2. split; [exact E2|]. split; [exact T2|]. split; [exact (same_trans _ _ _ S1 S2)|]. split; [congruence|]. split; [intros z [<-|J]; [now apply U2|now apply Y2]|]. split; [exact (incl_tran U1 U2)|].
    split; [intros x J; apply D2 in J; cbn [app]; rewrite in_app_iff in J; destruct J as [J|J]; [right; apply in_or_app; now left|]; apply D1 in J; destruct J as [<-|J]; [now left|right; apply in_or_app; now right]|].
    split; [now rewrite P2|]. split; [lia|]. split; [auto|]. intros N C. assert (S1' := S1). destruct S1' as (_ & _ & _ & _ & _ & PB & _).
    destruct (H1 N) as [Q1 Q2]; [cbn [In] in C; intuition congruence|]. destruct (H2 Q2) as [Q3 Q4]; [rewrite Q1, PB; cbn [In] in C; intuition auto|]. split; [congruence|exact Q4].
Qed.

Lemma next_of_mid a x b : ~ In x a -> next_of (a ++ x :: b) x = Ok (hd 0 b).
Proof. induction a as [|y a IH]; cbn [app next_of]; [now rewrite Nat.eqb_refl|]. intros N. cbn [In] in N. destruct (Nat.eqb_spec y x) as [->|]; [tauto|]. apply IH. tauto. Qed.

(** reachability *)
Inductive reach (kids : nat -> list nat) (S : list nat) : nat -> Prop :=
| reach_root x : In x S -> reach kids S x
| reach_step x y : reach kids S x -> In y (kids x) -> reach kids S y.
Lemma reach_incl kids S S' x : (forall y, In y S -> reach kids S' y) -> reach kids S x -> reach kids S' x.
Proof. intros I. induction 1 as [x J|x y _ IH J]; [now apply I|now apply reach_step with x]. Qed.
Lemma reach_closed kids S (L : list nat) : incl S L -> (forall x y, In x L -> In y (kids x) -> In y L) -> forall x, reach kids S x -> In x L.
Proof. intros I C. induction 1 as [x J|x y _ IH J]; [now apply I|now apply (C x)]. Qed.

(** the loop of zt_gc_collect *)
Lemma loop_ok kids unp full : forall fuel marks pre post g, tri kids unp pre post g -> scan g = hd 0 post -> length post + length (white g) < fuel ->
  exists g' fin pre' post', collect_loop fuel kids full marks g = Ok (g', fin) /\ tri kids unp (pre ++ pre') post' g' /\ scan g' = hd 0 post' /\ (forall x, In x pre' -> pb g x = true) /\
    enabled g' = enabled g /\ allocs g' = allocs g /\ mps g' = mps g /\ before g' = before g /\ (forall x, pb g' x = pb g x) /\ log g' = log g /\ Permutation (tracked g') (tracked g) /\
    incl (black g ++ grey g) (black g' ++ grey g') /\ (forall x, In x (black g' ++ grey g') -> reach kids (black g ++ grey g) x) /\
    (if fin then post' = [] else post' <> [] /\ full = false) /\ incl (black g) (black g') /\ (forall e r, post = e :: r -> pb g e = false -> In e (black g')).
Proof.
  induction fuel as [|fuel IH]; intros marks pre post g T SC L; [lia|]. cbn [collect_loop]. rewrite SC.
  destruct post as [|e post].
  - cbn [hd Nat.eqb]. exists g, true, [], []. rewrite app_nil_r. split; [reflexivity|]. split; [exact T|]. split; [exact SC|]. split; [intros x []|]. do 6 (split; [reflexivity|]). split; [reflexivity|]. split; [apply incl_refl|]. split; [intros x J; now apply reach_root|]. split; [reflexivity|]. split; [apply incl_refl|intros e r Q; discriminate Q].
  - cbn [hd] in *. assert (GE : In e (grey g)) by (rewrite (t_grey _ _ _ _ _ T); apply in_or_app; right; now left). assert (TE : In e (tracked g)) by (unfold tracked; rewrite !in_app_iff; tauto).
    assert (E0 : e <> 0) by (intros ->; exact (t_nz _ _ _ _ _ T TE)). rewrite (proj2 (Nat.eqb_neq _ _) E0).
    set (g1 := clear_white g e).
    assert (T1 : tri kids unp pre (e :: post) g1).
    { destruct T as [Tg Tnd Tnz Tw Td Tp Ts Tpre Te Tc]. constructor; try assumption; unfold g1.
      - intros x J. rewrite is_white_clear. destruct (Nat.eqb_spec x e) as [->|]; [|now apply Tw]. exfalso. unfold tracked in Tnd. apply nodup_app in Tnd. destruct Tnd as (_ & Tnd & _). apply nodup_app in Tnd. destruct Tnd as (_ & _ & Tnd). exact (Tnd e GE J).
      - intros x J. rewrite is_white_clear. destruct (x =? e)%nat; [reflexivity|now apply Td].
      - intros x J. rewrite is_white_clear. destruct (x =? e)%nat; [tauto|now apply Ts]. }
    assert (W1 : is_white g1 e = false) by (unfold g1; rewrite is_white_clear, Nat.eqb_refl; reflexivity).
    destruct (mark_all_ok kids unp pre (kids e) (e :: post) g1 T1) as (g2 & p2 & E2 & T2 & (S2a & S2b & S2c & S2d & S2e & S2f & S2g) & B2 & Y2 & U2 & D2 & P2 & L2 & W2 & H2). { intros y J. now apply (t_closed _ _ _ _ _ T e). }
    rewrite E2. cbn [obind]. destruct (H2 ltac:(discriminate) (or_introl W1)) as [HD NN]. cbn [hd] in HD. destruct p2 as [|e' p2]; [contradiction|]. cbn [hd] in HD. subst e'.
    pose proof (t_nd _ _ _ _ _ T2) as ND. unfold tracked in ND. rewrite (t_grey _ _ _ _ _ T2) in ND.
    assert (X : NoDup ((black g2 ++ pre) ++ e :: (p2 ++ white g2))) by (eapply Permutation_NoDup; [|exact ND]; permutes). apply nodup_mid in X. rewrite !in_app_iff in X.
    assert (NX : next_of (grey g2) e = Ok (hd 0 p2)) by (rewrite (t_grey _ _ _ _ _ T2); apply next_of_mid; tauto). rewrite NX. cbn [obind].
    set (g3 := set_scan (if pb g2 e then g2 else _) (hd 0 p2)).
    assert (PB2 : pb g2 e = pb g e) by apply S2f.
    assert (R3 : exists q, tri kids unp (pre ++ q) p2 g3 /\ scan g3 = hd 0 p2 /\ (forall x, In x q -> pb g x = true) /\ enabled g3 = enabled g /\ allocs g3 = allocs g /\ mps g3 = mps g /\ before g3 = before g /\ (forall x, pb g3 x = pb g x) /\ log g3 = log g /\ white g3 = white g2 /\ Permutation (tracked g3) (tracked g) /\ Permutation (black g3 ++ grey g3) (black g2 ++ grey g2) /\ incl (black g) (black g3) /\ (pb g e = false -> In e (black g3))).
    { assert (OLD : Permutation (tracked g2) (tracked g)) by exact P2.
      destruct (pb g2 e) eqn:PE.
      - exists [e]. assert (GG : grey g2 = (pre ++ [e]) ++ p2) by (rewrite (t_grey _ _ _ _ _ T2); now rewrite <- app_assoc). split.
        + pose proof T2 as [Tg Tnd Tnz Tw Td Tp Ts Tpre Te Tc]. constructor; try assumption.
          * intros x J. rewrite app_assoc, in_app_iff in J. destruct J as [J|[<-|[]]]; [now apply Td|now apply W2].
          * intros x J. apply in_app_iff in J. destruct J as [J|[<-|[]]]; [now apply Tpre|now left].
          * intros x y J K. rewrite app_assoc, in_app_iff in J. destruct J as [J|[<-|[]]]; [now apply (Te x)|now apply Y2].
        + split; [reflexivity|]. split; [intros x [<-|[]]; congruence|]. do 4 (split; [assumption|]). split; [exact S2f|]. split; [exact S2g|]. split; [reflexivity|]. split; [exact OLD|]. split; [reflexivity|]. split; [change (black g3) with (black g2); rewrite B2; apply incl_refl|intros Q; exfalso; congruence].
      - exists []. rewrite app_nil_r.
        assert (DG : del e (grey g2) = pre ++ p2) by (rewrite (t_grey _ _ _ _ _ T2); apply del_mid; tauto). assert (DB : del e (black g2) = black g2) by (apply del_notin; tauto). assert (DW : del e (white g2) = white g2) by (apply del_notin; tauto).
        unfold unlink, set_lists in g3. cbn [enabled allocs mps before one black grey white scan wb pb log] in g3. subst g3. rewrite DG, DB, DW. set (g3 := set_scan _ (hd 0 p2)).
        assert (PM : Permutation (tracked g3) (tracked g2)) by (unfold tracked, g3; cbn [set_scan black grey white]; rewrite (t_grey _ _ _ _ _ T2); permutes).
        assert (PBG : Permutation (black g3 ++ grey g3) (black g2 ++ grey g2)) by (unfold g3; cbn [set_scan black grey]; rewrite (t_grey _ _ _ _ _ T2); permutes).
        assert (IW3 : forall x, is_white g3 x = is_white g2 x) by reflexivity.
        split.
        + pose proof T2 as [Tg Tnd Tnz Tw Td Tp Ts Tpre Te Tc]. constructor.
          * reflexivity.
          * eapply Permutation_NoDup; [symmetry; exact PM|exact Tnd].
          * intros J. apply Tnz. eapply Permutation_in; [exact PM|exact J].
          * exact Tw.
          * intros x J. rewrite IW3. change (black g3) with (e :: black g2) in J. cbn [app In] in J. destruct J as [<-|J]; [now apply W2|now apply Td].
          * intros x J. change (black g3 ++ white g3) with (e :: black g2 ++ white g2) in J. change (pb g3 x) with (pb g2 x). destruct J as [<-|J]; [exact PE|now apply Tp].
          * intros x J. rewrite IW3. change (pb g3 x) with (pb g2 x). apply Ts. rewrite Tg. change (grey g3) with (pre ++ p2) in J. rewrite in_app_iff in *. cbn [In]. tauto.
          * exact Tpre.
          * intros x y J K. eapply Permutation_in; [symmetry; exact PBG|]. change (black g3) with (e :: black g2) in J. cbn [app In] in J. destruct J as [<-|J]; [now apply Y2|now apply (Te x)].
          * intros x y J K. eapply Permutation_in; [symmetry; exact PM|]. apply (Tc x); [|exact K]. eapply Permutation_in; [exact PM|exact J].
        + split; [reflexivity|]. split; [intros x []|]. do 4 (split; [assumption|]). split; [exact S2f|]. split; [exact S2g|]. split; [reflexivity|]. split; [now rewrite PM|]. split; [exact PBG|]. change (black g3) with (e :: black g2). split; [rewrite B2; apply incl_tl, incl_refl|intros _; now left]. }
    clearbody g3. destruct R3 as (q & T3 & SC3 & Q3 & A1 & A2 & A3 & A4 & A5 & A6 & A7 & P3 & PB3 & IB3 & EB3).
    assert (UP : incl (black g ++ grey g) (black g3 ++ grey g3)) by (intros x J; eapply Permutation_in; [symmetry; exact PB3|now apply U2]).
    assert (RE : forall x, In x (black g3 ++ grey g3) -> reach kids (black g ++ grey g) x).
    { intros x J. apply (Permutation_in _ PB3) in J. apply D2 in J. apply in_app_iff in J. destruct J as [J|J]; [|now apply reach_root]. apply reach_step with e; [|exact J]. apply reach_root, in_or_app. now right. }
    destruct (negb full && (mps g3 <=? marks + 1)%Z && negb (hd 0 p2 =? 0)%nat) eqn:C.
    + apply andb_true_iff in C. destruct C as [C C3]. apply andb_true_iff in C. destruct C as [C1 C2]. exists g3, false, q, p2. split; [reflexivity|]. split; [exact T3|]. split; [exact SC3|]. split; [exact Q3|]. do 4 (split; [assumption|]). split; [exact A5|]. split; [exact A6|]. split; [exact P3|]. split; [exact UP|]. split; [exact RE|]. split; [split; [intros ->; discriminate C3|now destruct full]|]. split; [exact IB3|intros e' r Q NP; assert (e' = e) as -> by congruence; now apply EB3].
    + cbn [length] in *. unfold g1 in L2. change (white (clear_white g e)) with (white g) in L2. destruct (IH (marks + 1)%Z (pre ++ q) p2 g3 T3 SC3) as (g4 & fin & q4 & p4 & E4 & T4 & SC4 & Q4 & Z1 & Z2 & Z3 & Z4 & Z5 & Z6 & P4 & U4 & R4 & F4 & IB4 & _); [rewrite A7; lia|].
      exists g4, fin, (q ++ q4), p4. rewrite app_assoc. split; [exact E4|]. split; [exact T4|]. split; [exact SC4|]. split; [intros x J; apply in_app_iff in J; destruct J as [J|J]; [now apply Q3|]; rewrite <- A5; now apply Q4|]. do 4 (split; [congruence|]). split; [intros x; now rewrite Z5|]. split; [congruence|]. split; [now rewrite P4|]. split; [exact (incl_tran UP U4)|]. split; [intros x J; apply R4 in J; revert J; apply reach_incl; exact RE|]. split; [exact F4|]. split; [exact (incl_tran IB3 IB4)|intros e' r Q NP; assert (e' = e) as -> by congruence; now apply IB4, EB3].
Qed.
