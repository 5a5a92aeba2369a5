(** The invariant of the histories of GcSpec.v. *)
From Verif Require Import Prelude Sep GcModel GcProofs GcSpec.
From Coq Require Import Permutation.

Definition ginv (kids : nat -> list nat) (unp : list nat) (g : gc) : Prop := exists pre post, tri kids unp pre post g /\ (scan g = 0 /\ pre = [] /\ black g = [] \/ scan g = hd 0 post /\ post <> []).
Lemma tri_scan kids unp pre post g s : tri kids unp pre post g -> tri kids unp pre post (set_scan g s).
Proof. intros [A B C D E F G H I J]. constructor; assumption. Qed.
Lemma tri_en kids unp pre post g e a : tri kids unp pre post g -> tri kids unp pre post (set_en g e a).
Proof. intros [A B C D E F G H I J]. constructor; assumption. Qed.
Lemma ginv_en kids unp g e a : ginv kids unp g -> ginv kids unp (set_en g e a).
Proof. intros (pre & post & T & S). exists pre, post. split; [now apply tri_en|exact S]. Qed.
Lemma switch_ok kids unp pre g : tri kids unp pre [] g -> tri kids unp [] pre (gc_switch g).
Proof.
  intros [Tg Tnd Tnz Tw Td Tp Ts Tpre Te Tc]. rewrite app_nil_r in Tg.
  assert (FL : forall x, is_white (gc_switch g) x = negb (is_white g x)) by (intros x; unfold is_white, gc_switch; cbn [wb one free_white]; destruct (wb g x), (one g); reflexivity).
  assert (IT : forall x, In x (tracked (gc_switch g)) <-> In x (black g ++ grey g)) by (intros x; unfold tracked, gc_switch; cbn [black grey white free_white app]; rewrite !in_app_iff; tauto).
  assert (PM : Permutation (tracked g) (tracked (gc_switch g) ++ white g)) by (unfold tracked, gc_switch; cbn [black grey white free_white app]; permutes).
  constructor.
  - exact Tg.
  - apply (Permutation_NoDup PM) in Tnd. apply nodup_app in Tnd. tauto.
  - intros J. apply Tnz. eapply Permutation_in; [symmetry; exact PM|]. apply in_or_app. now left.
  - intros x J. rewrite FL, Td; [reflexivity|]. apply in_or_app. now left.
  - intros x [].
  - intros x J. apply Tp. apply in_or_app. now left.
  - intros x J. change (grey (gc_switch g)) with (grey g) in J. rewrite Tg in J. apply Tpre in J. change (pb (gc_switch g) x) with (pb g x). tauto.
  - intros x [].
  - intros x y [].
  - intros x y J K. apply IT. apply IT in J. apply (Te x); [now rewrite <- Tg|exact K].
Qed.
Lemma tracked_len g : length (black g) + length (grey g) + length (white g) = length (tracked g).
Proof. unfold tracked. rewrite !app_length. lia. Qed.
Lemma collect_ok kids unp full g fuel : ginv kids unp g -> length (tracked g) < fuel ->
  exists g', gc_collect fuel kids g full = Ok g' /\ ginv kids unp g' /\ (exists r, log g' = log g ++ r /\ Permutation (tracked g) (tracked g' ++ r) /\ forall y, In y r -> pb g y = false) /\
    enabled g' = enabled g /\ mps g' = mps g /\ before g' = before g /\ (forall x, pb g' x = pb g x) /\
    (full = true -> (0 <= enabled g)%Z -> scan g' = 0 /\ (forall x, In x (tracked g') <-> reach kids (black g ++ grey g) x) /\ (scan g = 0 -> forall x, In x (grey g') -> pb g x = true)) /\ (scan g = 0 -> scan g' <> 0 -> forall e r, grey g = e :: r -> pb g e = false -> In e (black g')).
Proof.
  intros GI L. unfold gc_collect. destruct ((enabled g <? 0)%Z || negb full && (allocs g <? before g)%Z) eqn:C.
  - exists g. split; [reflexivity|]. split; [exact GI|]. split; [exists []; rewrite !app_nil_r; split; [reflexivity|]; split; [reflexivity|intros y []]|]. do 4 (split; [reflexivity|]). split; [|intros Z1 Z2; contradiction]. intros -> E. cbn [negb andb] in C. rewrite orb_false_r in C. apply Z.ltb_lt in C. lia.
  - clear C. set (g1 := set_en g _ 0). set (g2 := if (scan g1 =? 0)%nat then _ else g1).
    assert (S2 : exists pre post, tri kids unp pre post g2 /\ scan g2 = hd 0 post /\ (scan g = 0 -> pre = []) /\ (scan g = 0 -> post = grey g)).
    { destruct GI as (pre & post & T & S). assert (SC : scan g1 = scan g) by reflexivity. destruct S as [(S1 & -> & B)|[S1 S2]].
      - exists [], (grey g). assert (E : g2 = set_scan g1 (hd 0 (grey g))) by (unfold g2; now rewrite SC, S1). rewrite E. split; [|split; [reflexivity|split; trivial]]. apply tri_scan, tri_en. pose proof (t_grey _ _ _ _ _ T) as TG. cbn [app] in TG. now rewrite TG.
      - exists pre, post. assert (NZ : scan g <> 0). { rewrite S1. destruct post as [|e post]; [contradiction|]. cbn [hd]. intros ->. apply (t_nz _ _ _ _ _ T). unfold tracked. rewrite (t_grey _ _ _ _ _ T), !in_app_iff. cbn [In]. tauto. }
        assert (E : g2 = g1) by (unfold g2; rewrite SC; now rewrite (proj2 (Nat.eqb_neq _ _) NZ)). rewrite E. split; [now apply tri_en|]. split; [exact S1|]. split; intros Z; contradiction. }
    assert (F2 : enabled g2 = (enabled g - 1)%Z /\ mps g2 = mps g /\ before g2 = before g /\ pb g2 = pb g /\ log g2 = log g /\ black g2 = black g /\ grey g2 = grey g /\ white g2 = white g) by (unfold g2; destruct (scan g1 =? 0)%nat; repeat split).
    clearbody g2. clear g1. destruct F2 as (F1 & F2 & F3 & F4 & F5 & F6 & F7 & F8). destruct S2 as (pre & post & T & S & PZ & PG).
    assert (TR : tracked g2 = tracked g) by (unfold tracked; now rewrite F6, F7, F8).
    destruct (loop_ok kids unp full fuel 0%Z pre post g2 T S) as (g3 & fin & q & p3 & E3 & T3 & SC3 & Q3 & A1 & A2 & A3 & A4 & A5 & A6 & P3 & U3 & R3 & FI & IB & EB). { rewrite F8. pose proof (f_equal (@length nat) (t_grey _ _ _ _ _ T)) as GL. rewrite app_length, F7 in GL. pose proof (tracked_len g). lia. }
    rewrite E3. cbn [obind]. eexists. split; [reflexivity|]. destruct fin.
    + subst p3. rewrite TR in P3. rewrite F6, F7 in U3, R3. cbn [hd] in SC3.
      assert (PM : Permutation (tracked g) (tracked (gc_switch (set_en g3 (enabled g3 + 1) (allocs g3))) ++ white g3)) by (rewrite <- P3; unfold tracked, gc_switch; cbn [black grey white free_white app set_en]; permutes).
      split; [exists [], (pre ++ q); split; [apply switch_ok, tri_en, T3|left; split; [exact SC3|split; reflexivity]]|]. split; [exists (white g3); split; [cbn [gc_switch free_white set_en log white]; congruence|]; split; [exact PM|]; intros y J; rewrite <- F4, <- A5; apply (t_prot _ _ _ _ _ T3); apply in_or_app; now right|]. cbn [gc_switch free_white set_en enabled mps before pb scan]. split; [lia|]. split; [congruence|]. split; [congruence|]. split; [intros x; rewrite A5; congruence|].
      split; [|intros _ Z2; contradiction]. intros _ _. split; [exact SC3|]. split.
      * intros x. assert (IT : In x (tracked (gc_switch (set_en g3 (enabled g3 + 1) (allocs g3)))) <-> In x (black g3 ++ grey g3)) by (unfold tracked, gc_switch; cbn [black grey white free_white app set_en]; rewrite !in_app_iff; tauto). rewrite IT. split; [apply R3|].
        apply reach_closed; [exact U3|]. intros a b J K. apply (t_edge _ _ _ _ _ T3 a); [|exact K]. rewrite (t_grey _ _ _ _ _ T3), app_nil_r in J. exact J.
      * intros Z x J. specialize (PZ Z). subst pre. change (grey (gc_switch (set_en g3 (enabled g3 + 1) (allocs g3)))) with (grey g3) in J. rewrite (t_grey _ _ _ _ _ T3), app_nil_r in J. rewrite <- F4. now apply Q3.
    + destruct FI as [NE ->]. split; [exists (pre ++ q), p3; split; [now apply tri_en|right; split; [exact SC3|exact NE]]|]. split; [exists []; rewrite !app_nil_r; split; [cbn [set_en log]; congruence|]; split; [rewrite <- TR; symmetry; exact P3|intros y []]|]. cbn [set_en enabled mps before pb]. split; [lia|]. split; [congruence|]. split; [congruence|]. split; [intros x; rewrite A5; congruence|]. split; [discriminate|]. cbn [set_en black]. intros Z _ e r Q NP. apply (EB e r); [rewrite PG by exact Z; exact Q|congruence].
Qed.
Lemma loop_mono kids full : forall f f' marks g r, f <= f' -> collect_loop f kids full marks g = Ok r -> collect_loop f' kids full marks g = Ok r.
Proof.
  induction f as [|f IH]; intros [|f'] marks g r L; cbn [collect_loop]; try discriminate; try lia. destruct (scan g =? 0)%nat; [trivial|]. destruct (mark_all _ _) as [g1| | |]; cbn [obind]; try discriminate. destruct (next_of _ _) as [n| | |]; cbn [obind]; try discriminate. cbv zeta. match goal with |- (if ?b then _ else _) = _ -> _ => destruct b end; [trivial|]. apply IH. lia.
Qed.
Lemma collect_mono kids full f f' g r : f <= f' -> gc_collect f kids g full = Ok r -> gc_collect f' kids g full = Ok r.
Proof.
  intros L. unfold gc_collect. destruct (_ || _); [trivial|]. cbv zeta. match goal with |- (obind ?z _) = _ -> _ => destruct z as [q| | |] eqn:E; cbn [obind]; try discriminate end. now rewrite (loop_mono kids full f f' _ _ _ L E).
Qed.
Lemma step_mono o f f' w r : f <= f' -> step f w o = Ok r -> step f' w o = Ok r.
Proof.
  intros L. assert (M : forall g full q, gc_collect f (kids w) g full = Ok q -> gc_collect f' (kids w) g full = Ok q) by (intros; eapply collect_mono; eassumption).
  destruct o; cbn [step]; trivial.
  - unfold gc_register. cbv zeta. destruct (_ <=? _)%Z; [|trivial]. destruct (gc_collect f _ _ _) as [q| | |] eqn:E; cbn [obind]; try discriminate. now rewrite (M _ _ _ E).
  - unfold gc_unregister. cbv zeta. destruct (_ <? _)%Z; [|trivial]. destruct (gc_collect f _ _ _) as [q| | |] eqn:E; cbn [obind]; try discriminate. now rewrite (M _ _ _ E).
  - destruct (gc_collect f _ _ _) as [q| | |] eqn:E; cbn [obind]; try discriminate. now rewrite (M _ _ _ E).
  - unfold gc_enable. cbv zeta. destruct (guard _) as [[]| | |]; cbn [obind]; try discriminate. destruct (_ && _); [|trivial]. destruct (gc_collect f _ _ _) as [q| | |] eqn:E; cbn [obind]; try discriminate. now rewrite (M _ _ _ E).
Qed.

Record winv (w : world) : Prop := {
  w_g : ginv (kids w) (unp w) (wg w);
  w_en : (enabled (wg w) <= 0)%Z;
  w_prot : forall x, In x (prot w) <-> In x (grey (wg w)) /\ pb (wg w) x = true }.
Lemma live_tracked w x : live w x <-> In x (tracked (wg w)).
Proof. unfold live, gc_for_each, tracked. rewrite !map_app, !map_map. cbn [fst]. rewrite !map_id, !in_app_iff. tauto. Qed.
Lemma kept_grey kids unp g x : ginv kids unp g -> (In x (grey g) /\ pb g x = true <-> In x (tracked g) /\ pb g x = true).
Proof.
  intros (pre & post & T & _). unfold tracked. rewrite !in_app_iff. split; [tauto|]. intros [[J|[J|J]] P]; [| |]; try tauto; rewrite (t_prot _ _ _ _ _ T) in P; try discriminate; apply in_or_app; tauto.
Qed.
(** what a collection keeps and releases *)
Lemma protected_kept kids unp g g' r x : ginv kids unp g -> ginv kids unp g' -> (forall x, pb g' x = pb g x) -> Permutation (tracked g) (tracked g' ++ r) -> (forall y, In y r -> pb g y = false) -> (In x (grey g) /\ pb g x = true <-> In x (grey g') /\ pb g' x = true).
Proof.
  intros A B P PM R. rewrite (kept_grey _ _ _ _ A), (kept_grey _ _ _ _ B), P. split; intros [J K]; (split; [|exact K]).
  - apply (Permutation_in _ PM) in J. apply in_app_iff in J. destruct J as [J|J]; [exact J|]. apply R in J. congruence.
  - eapply Permutation_in; [symmetry; exact PM|]. apply in_or_app. now left.
Qed.

(** what a call does to the objects held and released *)
Definition effect (w : world) (o : op) (w' : world) : Prop := exists r, log (wg w') = log (wg w) ++ r /\ NoDup r /\
  (forall y, In y r -> (live w y \/ o = Register y) /\ ~ In y (prot w)) /\
  (forall y, live w' y <-> (live w y \/ o = Register y \/ o = Protect y) /\ o <> Unregister y /\ ~ In y r).
Lemma scan_nz kids unp pre post g : tri kids unp pre post g -> post <> [] -> hd 0 post <> 0.
Proof. intros T N. destruct post as [|e post]; [contradiction|]. cbn [hd]. intros ->. apply (t_nz _ _ _ _ _ T). unfold tracked. rewrite (t_grey _ _ _ _ _ T), !in_app_iff. cbn [In]. tauto. Qed.
Lemma idle_inv kids unp g : ginv kids unp g -> scan g = 0 -> tri kids unp [] (grey g) g /\ black g = [].
Proof.
  intros (pre & post & T & [(S & -> & B)|[S N]]) Z; [|rewrite S in Z; exfalso; exact (scan_nz _ _ _ _ _ T N Z)]. split; [|exact B]. pose proof (t_grey _ _ _ _ _ T) as G. cbn [app] in G. now rewrite G.
Qed.
Lemma del_app x a b : del x (a ++ b) = del x a ++ del x b.
Proof. apply filter_app. Qed.
Lemma nodup_del x l : NoDup l -> NoDup (del x l).
Proof. apply NoDup_filter. Qed.
Lemma tracked_unlink g x : tracked (unlink g x) = del x (tracked g).
Proof. unfold tracked, unlink. cbn [set_lists black grey white]. now rewrite !del_app. Qed.
Lemma tri_kids k k' unp pre post g : tri k unp pre post g -> (forall x y, In x (black g ++ pre) -> In y (k' x) -> In y (black g ++ grey g)) -> (forall x y, In x (tracked g) -> In y (k' x) -> In y (tracked g)) -> tri k' unp pre post g.
Proof. intros [A B C D E F G H I J] X Y. constructor; assumption. Qed.

Lemma collect_world w full : winv w -> exists g', (exists N, forall fuel, N <= fuel -> gc_collect fuel (kids w) (wg w) full = Ok g') /\ winv (mkw g' (kids w) (unp w) (prot w)) /\
  exists r, log g' = log (wg w) ++ r /\ NoDup r /\ (forall y, In y r -> live w y /\ ~ In y (prot w)) /\ (forall y, In y (tracked g') <-> live w y /\ ~ In y r).
Proof.
  intros [G E P]. destruct (collect_ok _ _ full _ _ G (Nat.lt_succ_diag_r _)) as (g' & C & G' & (r & L & PM & R) & Een & Em & Eb & Ep & _). exists g'. split; [exists (S (length (tracked (wg w)))); intros fuel LE; exact (collect_mono _ _ _ _ _ _ LE C)|]. split.
  - constructor; cbn [wg kids unp prot]; [exact G'|lia|]. intros y. rewrite P. exact (protected_kept _ _ _ _ r y G G' Ep PM R).
  - exists r. split; [exact L|]. destruct G as (pre & post & T & _). pose proof (t_nd _ _ _ _ _ T) as D. apply (Permutation_NoDup PM) in D. apply nodup_app in D. destruct D as (D1 & D2 & D3). split; [exact D2|]. split.
    + intros y J. split; [apply live_tracked; eapply Permutation_in; [symmetry; exact PM|]; apply in_or_app; now right|]. rewrite P. intros [_ K]. rewrite R in K; [discriminate|exact J].
    + intros y. rewrite live_tracked. split; [intros J; split; [eapply Permutation_in; [symmetry; exact PM|]; apply in_or_app; now left|now apply D3]|]. intros [J K]. apply (Permutation_in _ PM) in J. apply in_app_iff in J. tauto.
Qed.

Ltac still := exists 0; intros fuel _; reflexivity.
Lemma protect_ok w x : winv w -> allowed w (Protect x) -> winv (mkw (gc_protect (wg w) x) (kids w) (unp w) (x :: prot w)) /\ (forall y, In y (tracked (gc_protect (wg w) x)) <-> y = x \/ live w y).
Proof.
  intros [G E P] (X0 & K & C). set (g := wg w) in *. set (g' := gc_protect g x).
  assert (B' : black g' = del x (black g)) by reflexivity. assert (Y' : grey g' = x :: del x (grey g)) by reflexivity. assert (W' : white g' = del x (white g)) by reflexivity.
  assert (TR : Permutation (tracked g') (x :: del x (tracked g))) by (unfold tracked; rewrite B', Y', W', !del_app; permutes).
  assert (IT : forall y, In y (tracked g') <-> y = x \/ live w y). { intros y. rewrite live_tracked. fold g. split; [intros J; apply (Permutation_in _ TR) in J; destruct J as [J|J]; [now left|]; apply in_del in J; tauto|]. intros J. eapply Permutation_in; [symmetry; exact TR|]. destruct (Nat.eq_dec y x) as [->|N]; [now left|right; apply in_del; tauto]. }
  assert (IW : forall y, is_white g' y = if (y =? x)%nat then false else is_white g y) by (intros y; apply (is_white_clear g x y)).
  assert (PB : forall y, pb g' y = if (y =? x)%nat then true else pb g y) by reflexivity.
  assert (GI : ginv (kids w) (unp w) g').
  { assert (MK : forall pre post pre' post', tri (kids w) (unp w) pre post g -> x :: del x (grey g) = pre' ++ post' -> (forall y, In y pre' -> In y pre \/ y = x /\ kids w x = []) -> (scan g' = 0 /\ pre' = [] /\ black g' = [] \/ scan g' = hd 0 post' /\ post' <> []) -> ginv (kids w) (unp w) g').
    { intros pre post pre' post' T EQ PR SC. exists pre', post'. split; [|exact SC]. destruct T as [Tg Tnd Tnz Tw Td Tp Ts Tpre Te Tc]. constructor.
      - now rewrite Y'.
      - eapply Permutation_NoDup; [symmetry; exact TR|]. constructor; [rewrite in_del; tauto|now apply nodup_del].
      - intros J. apply (Permutation_in _ TR) in J. destruct J as [J|J]; [congruence|]. apply in_del in J. tauto.
      - intros y J. rewrite W', in_del in J. rewrite IW, (proj2 (Nat.eqb_neq _ _) (proj2 J)). apply Tw, J.
      - intros y J. rewrite IW. destruct (Nat.eqb_spec y x) as [->|N]; [reflexivity|]. apply Td. rewrite B', in_app_iff, in_del in J. rewrite in_app_iff. destruct J as [J|J]; [tauto|]. destruct (PR y J) as [Q|[Q _]]; [tauto|contradiction].
      - intros y J. rewrite B', W', in_app_iff, !in_del in J. rewrite PB. destruct (Nat.eqb_spec y x) as [->|N]; [tauto|]. apply Tp. rewrite in_app_iff. tauto.
      - intros y J. rewrite PB, IW. destruct (Nat.eqb_spec y x) as [->|N]; [tauto|]. rewrite Y' in J. destruct J as [J|J]; [congruence|]. apply in_del in J. apply Ts, J.
      - intros y J. rewrite PB. destruct (Nat.eqb_spec y x) as [->|N]; [tauto|]. destruct (PR y J) as [Q|[Q _]]; [now apply Tpre|contradiction].
      - intros y z J Kz. assert (Q : In z (black g ++ grey g)).
        { apply (Te y); [|exact Kz]. rewrite B', in_app_iff, in_del in J. rewrite in_app_iff. destruct J as [J|J]; [tauto|]. destruct (PR y J) as [Q|[-> Q]]; [tauto|]. rewrite Q in Kz. destruct Kz. }
        rewrite B', Y', in_app_iff, in_del. cbn [In]. rewrite in_del. rewrite in_app_iff in Q. destruct (Nat.eq_dec z x); [subst; tauto|tauto].
      - intros y z J Kz. apply IT. apply IT in J. destruct J as [->|J]; [apply K in Kz; tauto|]. right. rewrite live_tracked in *. now apply (Tc y). }
    pose proof G as (pre & post & T & SC). destruct SC as [(S1 & -> & B)|[S1 N1]].
    - apply (MK [] post [] (x :: del x (grey g)) T eq_refl); [intros y []|]. left. split; [exact S1|]. split; [reflexivity|]. now rewrite B', B.
    - pose proof (scan_nz _ _ _ _ _ T N1) as NZ. destruct C as [C|C]; [unfold idle in C; fold g in C; congruence|]. destruct post as [|e post]; [contradiction|]. cbn [hd] in *. destruct (Nat.eq_dec e x) as [->|NE].
      + apply (MK pre (x :: post) [] (x :: del x (grey g)) T eq_refl); [intros y []|]. right. split; [exact S1|discriminate].
      + apply (MK pre (e :: post) (x :: del x pre) (e :: del x post) T).
        * rewrite (t_grey _ _ _ _ _ T), del_app. cbn [app]. do 2 f_equal. unfold del. cbn [filter]. now rewrite (proj2 (Nat.eqb_neq _ _) NE).
        * intros y [<-|J]; [tauto|]. apply in_del in J. tauto.
        * right. split; [exact S1|discriminate]. }
  split; [|exact IT]. constructor; cbn [wg kids unp prot]; [exact GI|exact E|]. intros y. rewrite (kept_grey _ _ _ _ GI), IT, PB, live_tracked. fold g. cbn [In]. rewrite P. fold g. rewrite (kept_grey _ _ _ _ G). destruct (Nat.eqb_spec y x) as [->|N]; intuition congruence.
Qed.

Theorem step_ok w o : winv w -> allowed w o -> exists w', does w o w' /\ winv w' /\ effect w o w'.
Proof.
  intros WI AL. pose proof WI as [G E P]. destruct o as [x|x|x|x|x ks|x ks|full| |].
  - destruct AL as (X0 & NL & K & PF). set (g := wg w) in *. set (g1 := set_en (set_lists (clear_white g x) (black g) (grey g ++ [x]) (white g)) (enabled g) (allocs g + 1)).
    assert (NT : ~ In x (tracked g)) by (intros J; now apply NL, live_tracked).
    assert (IW : forall y, is_white g1 y = if (y =? x)%nat then false else is_white g y) by (intros y; apply (is_white_clear g x y)).
    assert (PM : Permutation (tracked g1) (x :: tracked g)) by (unfold tracked, g1; cbn [set_en set_lists black grey white]; permutes).
    assert (T1 : ginv (kids w) (unp w) g1).
    { destruct G as (pre & post & T & SC). exists pre, (post ++ [x]). split.
      - destruct T as [Tg Tnd Tnz Tw Td Tp Ts Tpre Te Tc]. assert (NG : ~ In x (grey g)) by (intros J; apply NT; unfold tracked; rewrite !in_app_iff; tauto). constructor.
        + unfold g1. cbn [set_en set_lists grey]. fold g in Tg. now rewrite Tg, <- app_assoc.
        + eapply Permutation_NoDup; [symmetry; exact PM|]. now constructor.
        + intros J. apply (Permutation_in _ PM) in J. destruct J as [J|J]; [congruence|contradiction].
        + intros y J. rewrite IW. destruct (Nat.eqb_spec y x) as [->|]; [|now apply Tw]. exfalso. apply NT. unfold tracked. rewrite !in_app_iff. tauto.
        + intros y J. rewrite IW. destruct (y =? x)%nat; [reflexivity|now apply Td].
        + exact Tp.
        + intros y J. rewrite IW. destruct (y =? x)%nat eqn:EQ; [tauto|]. apply Ts. unfold g1 in J. cbn [set_en set_lists grey] in J. apply in_app_iff in J. destruct J as [J|[J|[]]]; [exact J|]. apply Nat.eqb_neq in EQ. congruence.
        + exact Tpre.
        + intros y z J Kz. pose proof (Te y z J Kz) as Q. unfold g1. cbn [set_en set_lists black grey]. rewrite !in_app_iff in *. tauto.
        + intros y z J Kz. eapply Permutation_in; [symmetry; exact PM|]. apply (Permutation_in _ PM) in J. destruct J as [<-|J]; [destruct (K z Kz) as [->|L]; [now left|right; now apply live_tracked]|right; now apply (Tc y)].
      - destruct SC as [(S1 & S2 & S3)|[S1 S2]]; [left; split; [exact S1|]; split; [exact S2|exact S3]|right]. destruct post as [|e post]; [contradiction|]. split; [exact S1|discriminate]. }
    set (w1 := mkw g1 (kids w) (unp w) (prot w)).
    assert (L1 : forall y, live w1 y <-> live w y \/ y = x). { intros y. rewrite !live_tracked. cbn [wg w1]. split; [intros J; apply (Permutation_in _ PM) in J; destruct J as [J|J]; [right; congruence|now left]|]. intros J. eapply Permutation_in; [symmetry; exact PM|]. destruct J as [J| ->]; [now right|now left]. }
    assert (W1 : winv w1). { constructor; [exact T1|exact E|]. intros y. cbn [w1 prot wg]. rewrite P. fold g. unfold g1. cbn [set_en set_lists grey pb]. rewrite in_app_iff. cbn [In]. split; [tauto|]. intros [[J|[<-|[]]] Q]; [tauto|]. change (pb g x = true) in Q. congruence. }
    destruct (before g1 <=? allocs g1)%Z eqn:CB.
    + destruct (collect_world w1 false W1) as (g2 & (N & C2) & W2 & r & LG & ND & R1 & R2). exists (mkw g2 (kids w) (unp w) (prot w)). split; [|split; [exact W2|]].
      * exists N. intros fuel L. cbn [step]. unfold gc_register. cbv zeta. fold g. change (set_en _ _ _) with g1. rewrite CB. change g1 with (wg w1). change (kids w) with (kids w1). now rewrite (C2 fuel L).
      * exists r. split; [exact LG|]. split; [exact ND|]. split.
        -- intros y J. destruct (R1 y J) as [Q1 Q2]. apply L1 in Q1. split; [|exact Q2]. destruct Q1 as [Q1| ->]; tauto.
        -- intros y. rewrite live_tracked. cbn [wg]. rewrite R2, L1. split; [intros [[J|J] Q]; split; try tauto; [split; [discriminate|exact Q]|subst; tauto|split; [discriminate|exact Q]]|]. intros ([J|[J|J]] & _ & Q); [tauto|injection J as ->; tauto|discriminate].
    + exists w1. split; [|split; [exact W1|]].
      * exists 0. intros fuel _. cbn [step]. unfold gc_register. cbv zeta. fold g. change (set_en _ _ _) with g1. now rewrite CB.
      * exists []. rewrite app_nil_r. split; [reflexivity|]. split; [constructor|]. split; [intros y []|]. intros y. rewrite L1. split; [intros [J|J]; (split; [|split; [discriminate|intros []]]); [tauto|subst; tauto]|]. intros ([J|[J|J]] & _); [tauto|injection J as ->; tauto|discriminate].
  - destruct AL as (ID & K). unfold idle in ID. set (g := wg w) in *. destruct (idle_inv _ _ _ G ID) as [T B]. set (g1 := set_en (unlink g x) (enabled g) (allocs g + 1)).
    assert (TR : tracked g1 = del x (tracked g)) by (apply (tracked_unlink g x)).
    assert (IT : forall y, In y (tracked g1) <-> live w y /\ y <> x) by (intros y; rewrite TR, in_del, live_tracked; reflexivity).
    assert (IW : forall y, is_white g1 y = is_white g y) by reflexivity. assert (PB : pb g1 = pb g) by reflexivity.
    assert (GI : ginv (kids w) (unp w) g1).
    { exists [], (del x (grey g)). split; [|left; split; [exact ID|split; [reflexivity|]]; unfold g1; cbn [set_en unlink set_lists black]; now rewrite B].
      destruct T as [Tg Tnd Tnz Tw Td Tp Ts Tpre Te Tc]. assert (B1 : black g1 = []) by (unfold g1; cbn [set_en unlink set_lists black]; now rewrite B). constructor.
      - reflexivity.
      - rewrite TR. now apply nodup_del.
      - rewrite TR, in_del. tauto.
      - intros y J. rewrite IW. apply Tw. unfold g1 in J. cbn [set_en unlink set_lists white] in J. apply in_del in J. tauto.
      - rewrite B1. intros y [].
      - rewrite B1. intros y J. rewrite PB. apply Tp. cbn [app] in J. unfold g1 in J. cbn [set_en unlink set_lists white] in J. apply in_del in J. rewrite in_app_iff. tauto.
      - intros y J. rewrite IW, PB. apply Ts. unfold g1 in J. cbn [set_en unlink set_lists grey] in J. apply in_del in J. tauto.
      - intros y [].
      - rewrite B1. intros y z [].
      - intros y z J Kz. apply IT in J. destruct J as [J N]. apply IT. split; [apply live_tracked; apply (Tc y); [now apply live_tracked|exact Kz]|]. intros ->. exact (K y J N Kz). }
    set (w1 := mkw g1 (kids w) (unp w) (del x (prot w))). exists w1. split; [|split].
    + exists 0. intros fuel _. cbn [step]. unfold gc_unregister. cbv zeta. fold g. change (set_en _ _ _) with g1. destruct (allocs g1 <? before g1)%Z eqn:CB; [|reflexivity]. unfold gc_collect. rewrite CB. cbn [negb andb]. now rewrite orb_true_r.
    + constructor; [exact GI|exact E|]. intros y. cbn [w1 prot wg kids unp]. rewrite in_del, P. fold g. rewrite PB. unfold g1. cbn [set_en unlink set_lists grey]. rewrite in_del. tauto.
    + exists []. rewrite app_nil_r. split; [reflexivity|]. split; [constructor|]. split; [intros y []|]. intros y. rewrite (live_tracked w1). cbn [wg w1]. rewrite IT. split; [intros [J N]; split; [tauto|split; [congruence|intros []]]|]. intros ([J|[J|J]] & N & _); try discriminate. split; [exact J|]. congruence.
  - destruct (protect_ok w x WI AL) as [W1 IT]. eexists. split; [still|]. split; [exact W1|]. exists []. rewrite app_nil_r. split; [reflexivity|]. split; [constructor|]. split; [intros y []|]. intros y. rewrite live_tracked. cbn [wg]. rewrite IT. split; [intros J; split; [destruct J as [->|J]; tauto|split; [discriminate|intros []]]|]. intros ([J|[J|J]] & _); [tauto|discriminate|injection J as ->; tauto].
  - cbn [allowed] in AL. set (g := wg w) in *. set (w1 := mkw (set_pb g x false) (kids w) (x :: unp w) (del x (prot w))). exists w1.
    assert (PB : forall y, pb (wg w1) y = if (y =? x)%nat then false else pb g y) by reflexivity. split; [|split].
    + exists 0. intros fuel _. cbn [step]. unfold gc_unprotect. rewrite (proj2 (Nat.eqb_neq _ _) AL). reflexivity.
    + constructor; [|exact E|].
      * destruct G as (pre & post & T & SC). exists pre, post. split; [|exact SC]. destruct T as [Tg Tnd Tnz Tw Td Tp Ts Tpre Te Tc]. constructor; try assumption.
        -- intros y J. rewrite PB. destruct (y =? x)%nat; [reflexivity|now apply Tp].
        -- intros y J. rewrite PB. cbn [unp w1 In]. destruct (Nat.eqb_spec y x) as [->|]; [tauto|]. destruct (Ts y J) as [Q|[Q|Q]]; tauto.
        -- intros y J. rewrite PB. cbn [unp w1 In]. destruct (Nat.eqb_spec y x) as [->|]; [tauto|]. destruct (Tpre y J) as [Q|Q]; tauto.
      * intros y. rewrite PB. cbn [prot w1]. rewrite in_del, P. fold g. change (grey (wg w1)) with (grey g). destruct (Nat.eqb_spec y x) as [->|]; intuition congruence.
    + exists []. rewrite app_nil_r. split; [reflexivity|]. split; [constructor|]. split; [intros y []|]. intros y. rewrite !live_tracked. change (tracked (wg w1)) with (tracked g). fold g. split; [intros J; split; [tauto|split; [discriminate|intros []]]|]. intros ([J|[J|J]] & _); [tauto|discriminate|discriminate].
  - destruct AL as (K & C). pose proof G as (pre & post & T & SC). set (g := wg w) in *.
    destruct (mark_all_ok _ _ _ ks post g T) as (g' & post' & E' & T' & (A1 & A2 & A3 & A4 & A5 & A6 & A7) & B' & Y' & U' & D' & PM & _ & _ & H'). { intros y J. now apply live_tracked, K. }
    set (w1 := mkw g' (setk (kids w) x ks) (unp w) (prot w)). exists w1.
    assert (IT : forall y, In y (tracked g') <-> In y (tracked g)) by (intros y; split; apply Permutation_in; [exact PM|now symmetry]).
    assert (GI : ginv (kids w1) (unp w1) (wg w1)).
    { cbn [w1 kids unp wg]. exists pre, post'. split.
      - apply (tri_kids _ _ _ _ _ _ T').
        + intros a b J Kb. unfold setk in Kb. destruct (a =? x)%nat; [now apply Y'|]. now apply (t_edge _ _ _ _ _ T' a).
        + intros a b J Kb. unfold setk in Kb. destruct (a =? x)%nat; [apply IT; now apply live_tracked, K|]. now apply (t_closed _ _ _ _ _ T' a).
      - destruct SC as [(S1 & S2 & S3)|[S1 S2]]; [left; split; [congruence|]; split; [exact S2|congruence]|right]. rewrite A5, S1. destruct C as [C|C]; [exfalso; unfold idle in C; fold g in C; exact (scan_nz _ _ _ _ _ T S2 (eq_trans (eq_sym S1) C))|].
        destruct (H' S2) as [Q1 Q2]; [|split; [congruence|exact Q2]]. destruct (in_dec Nat.eq_dec (hd 0 post) ks) as [J|J]; [|tauto]. assert (GE : In (hd 0 post) (grey g)). { rewrite (t_grey _ _ _ _ _ T). apply in_or_app. right. destruct post; [contradiction|now left]. } destruct (t_stale _ _ _ _ _ T _ GE) as [Q|[Q|Q]]; [tauto| |tauto]. exfalso. exact (C _ J Q). }
    split; [|split].
    + exists 0. intros fuel _. cbn [step]. fold g. rewrite E'. reflexivity.
    + constructor; [exact GI|change (enabled g' <= 0)%Z; rewrite A1; exact E|]. intros y. cbn [w1 prot wg] in *. rewrite P. fold g. rewrite (kept_grey _ _ _ _ G), (kept_grey _ _ _ _ GI), A6, IT. reflexivity.
    + exists []. rewrite app_nil_r. split; [exact A7|]. split; [constructor|]. split; [intros y []|]. intros y. rewrite !live_tracked. change (wg w1) with g'. fold g. rewrite IT. split; [intros J; split; [tauto|split; [discriminate|intros []]]|]. intros ([J|[J|J]] & _); [tauto|discriminate|discriminate].
  - cbn [allowed] in AL. eexists. split; [still|]. split.
    + constructor; cbn [wg kids unp prot]; [|exact E|exact P]. destruct G as (pre & post & T & SC). exists pre, post. split; [|exact SC]. assert (KK : forall a b, In b (setk (kids w) x ks a) -> In b (kids w a)). { intros a b J. unfold setk in J. destruct (Nat.eqb_spec a x) as [->|]; [now apply AL|exact J]. }
      apply (tri_kids _ _ _ _ _ _ T); intros a b J Kb; apply KK in Kb; [now apply (t_edge _ _ _ _ _ T a)|now apply (t_closed _ _ _ _ _ T a)].
    + exists []. rewrite app_nil_r. split; [reflexivity|]. split; [constructor|]. split; [intros y []|]. intros y. rewrite !live_tracked. cbn [wg]. split; [intros J; split; [tauto|split; [discriminate|intros []]]|]. intros ([J|[J|J]] & _); [tauto|discriminate|discriminate].
  - destruct (collect_world w full WI) as (g2 & (N & C2) & W2 & r & LG & ND & R1 & R2). exists (mkw g2 (kids w) (unp w) (prot w)). split; [exists N; intros fuel L; cbn [step]; now rewrite (C2 fuel L)|]. split; [exact W2|]. exists r. split; [exact LG|]. split; [exact ND|]. split; [intros y J; destruct (R1 y J); tauto|]. intros y. rewrite live_tracked. cbn [wg]. rewrite R2. split; [intros [J Q]; split; [tauto|split; [discriminate|exact Q]]|]. intros ([J|[J|J]] & _ & Q); [tauto|discriminate|discriminate].
  - cbn [allowed] in AL. set (g := wg w) in *. set (w1 := mkw (set_en g (enabled g + 1) (allocs g)) (kids w) (unp w) (prot w)).
    assert (W1 : winv w1) by (constructor; [now apply ginv_en|change (enabled g + 1 <= 0)%Z; lia|exact P]). assert (GU : (enabled (wg w1) <=? 0)%Z = true) by (apply Z.leb_le; apply (w_en _ W1)).
    assert (L1 : forall y, live w1 y <-> live w y) by (intros y; reflexivity).
    destruct ((enabled (wg w1) =? 0)%Z && (before (wg w1) <=? allocs (wg w1))%Z) eqn:CB.
    + destruct (collect_world w1 false W1) as (g2 & (N & C2) & W2 & r & LG & ND & R1 & R2). exists (mkw g2 (kids w) (unp w) (prot w)). split; [|split; [exact W2|]].
      * exists N. intros fuel L. cbn [step]. unfold gc_enable. cbv zeta. fold g. change (set_en g _ _) with (wg w1). rewrite GU. cbn [guard obind]. rewrite CB. change (kids w) with (kids w1). now rewrite (C2 fuel L).
      * exists r. split; [exact LG|]. split; [exact ND|]. split; [intros y J; destruct (R1 y J) as [Q1 Q2]; apply L1 in Q1; tauto|]. intros y. rewrite live_tracked. cbn [wg]. rewrite R2, L1. split; [intros [J Q]; split; [tauto|split; [discriminate|exact Q]]|]. intros ([J|[J|J]] & _ & Q); [tauto|discriminate|discriminate].
    + exists w1. split; [|split; [exact W1|]].
      * exists 0. intros fuel _. cbn [step]. unfold gc_enable. cbv zeta. fold g. change (set_en g _ _) with (wg w1). rewrite GU. cbn [guard obind]. now rewrite CB.
      * exists []. rewrite app_nil_r. split; [reflexivity|]. split; [constructor|]. split; [intros y []|]. intros y. rewrite L1. split; [intros J; split; [tauto|split; [discriminate|intros []]]|]. intros ([J|[J|J]] & _); [tauto|discriminate|discriminate].
  - eexists. split; [still|]. split; [constructor; cbn [wg kids unp prot gc_disable]; [now apply ginv_en|change (enabled (wg w) - 1 <= 0)%Z; lia|exact P]|]. exists []. rewrite app_nil_r. split; [reflexivity|]. split; [constructor|]. split; [intros y []|]. intros y. rewrite !live_tracked. cbn [wg]. change (tracked (gc_disable (wg w))) with (tracked (wg w)). split; [intros J; split; [tauto|split; [discriminate|intros []]]|]. intros ([J|[J|J]] & _); [tauto|discriminate|discriminate].
Qed.
