(** zt_tree.c: searching, insertion, iteration *)
From Verif Require Import Prelude Heap RbtModel RbtRep RbtInsert RbtRemove.
From Coq Require Import Permutation Sorted.

(** cmp is a three-way comparison: a total preorder on the elements *)
Definition three_way (cmp : nat -> nat -> Z) : Prop :=
  (forall x y, (cmp x y < 0 <-> 0 < cmp y x)%Z) /\ (forall x y z, (cmp x y <= 0 -> cmp y z <= 0 -> cmp x z <= 0)%Z).
Definition sorted (cmp : nat -> nat -> Z) (L : list nat) : Prop := StronglySorted (fun x y => (cmp x y < 0)%Z) L.

Section Cmp.
Variable cmp : nat -> nat -> Z.
Hypothesis TW : three_way cmp.
Lemma cmp_anti x y : (cmp x y < 0 <-> 0 < cmp y x)%Z. Proof. apply TW. Qed.
Lemma cmp_refl x : (cmp x x = 0)%Z. Proof. pose proof (cmp_anti x x). lia. Qed.
Lemma cmp_lt x y z : (cmp x y <= 0 -> cmp y z < 0 -> cmp x z < 0)%Z.
Proof.
  intros A B. destruct (Z_lt_le_dec (cmp x z) 0) as [C|C]; [exact C|]. pose proof (cmp_anti y z). pose proof (cmp_anti x z). pose proof (cmp_anti z x). pose proof (cmp_anti z y). pose proof (cmp_anti x y). pose proof (cmp_anti y x).
  assert (cmp z y <= 0)%Z by (apply (proj2 TW) with x; lia). lia.
Qed.
Lemma cmp_gt x y z : (0 <= cmp x y -> cmp z y < 0 -> 0 < cmp x z)%Z.
Proof.
  intros A B. destruct (Z_lt_le_dec 0 (cmp x z)) as [C|C]; [exact C|]. pose proof (cmp_lt x z y C B). lia.
Qed.
Lemma sorted_app L M : sorted cmp (L ++ M) <-> sorted cmp L /\ sorted cmp M /\ (forall x y, In x L -> In y M -> (cmp x y < 0)%Z).
Proof.
  induction L as [|a L IH]; cbn [app].
  - split; [intros H; split; [constructor|split; [exact H|intros ? ? []]]|tauto].
  - split.
    + intros H. inversion H as [|? ? H1 H2]; subst. apply IH in H1. destruct H1 as (A & B & C). rewrite Forall_app in H2. destruct H2 as [H2 H3]. rewrite Forall_forall in H2, H3.
      split; [constructor; [exact A|now apply Forall_forall]|]. split; [exact B|]. intros x y [<-|I] J; auto.
    + intros (A & B & C). inversion A as [|? ? A1 A2]; subst. constructor; [apply IH; split; [exact A1|split; [exact B|intros x y I J; apply C; [now right|exact J]]]|].
      apply Forall_app. split; [exact A2|]. apply Forall_forall. intros y J. apply C; [now left|exact J].
Qed.
Lemma sorted_mid L x M : sorted cmp (L ++ x :: M) -> sorted cmp L /\ sorted cmp M /\ Forall (fun y => (cmp y x < 0)%Z) L /\ Forall (fun y => (cmp x y < 0)%Z) M.
Proof.
  intros H. apply sorted_app in H. destruct H as (A & B & C). inversion B as [|? ? B1 B2]; subst. split; [exact A|]. split; [exact B1|]. split; [|exact B2]. apply Forall_forall. intros y I. apply C; [exact I|now left].
Qed.

Definition dirok (z : list frame) (comp : Z) : Prop := match z with [] => True | (Lf, _, _, _) :: _ => (comp < 0)%Z | (Rt, _, _, _) :: _ => (0 < comp)%Z end.
Lemma descend_ok h F x : forall t z fuel comp, height t < fuel -> holds h (nodes (plug z t) 0 ++ F) -> sorted cmp (inorder (plug z t)) ->
  Forall (fun y => (0 < cmp x y)%Z) (zleft z) -> Forall (fun y => (cmp x y < 0)%Z) (zright z) -> dirok z comp ->
  (exists z' c l y r, descend fuel cmp h x (root t) (zroot z) comp = Ok (y, cmp x y, y) /\ plug z' (N c l y r) = plug z t /\ cmp x y = 0%Z)
  \/ (exists z' comp', descend fuel cmp h x (root t) (zroot z) comp = Ok (zroot z', comp', 0) /\ plug z' E = plug z t /\ dirok z' comp' /\
        Forall (fun y => (0 < cmp x y)%Z) (zleft z') /\ Forall (fun y => (cmp x y < 0)%Z) (zright z')).
Proof.
  induction t as [|c l IHl a r IHr]; intros z fuel comp FU H SO FL FR DI; (destruct fuel as [|fuel]; [lia|]); cbn [descend root height] in *.
  - right. exists z, comp. cbn [Nat.eqb]. auto.
  - assert (LA : a <> 0 /\ load h a = Ok (mknode c (root l) (root r) (zroot z))) by (apply rep_plug in H; flat H; bring a H; apply (holds_head _ _ _ _ H)). destruct LA as [NA LA].
    rewrite (proj2 (Nat.eqb_neq _ _) NA), LA. cbn [obind left right].
    assert (SO' := SO). rewrite inorder_plug in SO'. cbn [inorder] in SO'. rewrite <- app_assoc, app_assoc in SO'. cbn [app] in SO'. apply sorted_mid in SO'. destruct SO' as (_ & _ & SL & SR).
    apply Forall_app in SL. apply Forall_app in SR. destruct SL as [_ SL], SR as [SR _].
    destruct (cmp x a <? 0)%Z eqn:C1; [apply Z.ltb_lt in C1|apply Z.ltb_ge in C1].
    + destruct (IHl ((Lf, c, a, r) :: z) fuel (cmp x a) ltac:(lia) H SO FL) as [(z' & c' & l' & y & r' & A)|(z' & k & A)]; [|exact C1|left; exists z', c', l', y, r'; exact A|right; exists z', k; exact A].
      cbn [zright]. constructor; [exact C1|]. apply Forall_app. split; [|exact FR]. eapply Forall_impl; [|exact SR]. intros b B. cbn beta in B. apply cmp_lt with a; [lia|exact B].
    + destruct (0 <? cmp x a)%Z eqn:C2; [apply Z.ltb_lt in C2|apply Z.ltb_ge in C2].
      * destruct (IHr ((Rt, c, a, l) :: z) fuel (cmp x a) ltac:(lia) H SO) as [(z' & c' & l' & y & r' & A)|(z' & k & A)]; [|exact FR|exact C2|left; exists z', c', l', y, r'; exact A|right; exists z', k; exact A].
        cbn [zleft]. apply Forall_app. split; [exact FL|]. apply Forall_app. split; [|now repeat constructor]. eapply Forall_impl; [|exact SL]. intros b B. cbn beta in B. apply cmp_gt with a; [lia|exact B].
      * left. exists z, c, l, a, r. split; [reflexivity|]. split; [reflexivity|lia].
Qed.
Lemma find_none {A} (f : A -> bool) L : Forall (fun y => f y = false) L -> List.find f L = None.
Proof. induction 1 as [|y L H _ IH]; [reflexivity|]. cbn [List.find]. now rewrite H. Qed.
Lemma find_app {A} (f : A -> bool) L M : List.find f (L ++ M) = match List.find f L with Some y => Some y | None => List.find f M end.
Proof. induction L as [|y L IH]; [reflexivity|]. cbn [app List.find]. destruct (f y); [reflexivity|exact IH]. Qed.
Lemma filter_all {A} (f : A -> bool) L : Forall (fun y => f y = true) L -> filter f L = L.
Proof. induction 1 as [|y L H _ IH]; [reflexivity|]. cbn [filter]. now rewrite H, IH. Qed.
Lemma filter_none {A} (f : A -> bool) L : Forall (fun y => f y = false) L -> filter f L = [].
Proof. induction 1 as [|y L H _ IH]; [reflexivity|]. cbn [filter]. now rewrite H, IH. Qed.

(** in a sorted list the only element equal to x under cmp is the one found *)
Lemma find_eq L x y M : sorted cmp (L ++ y :: M) -> cmp x y = 0%Z -> List.find (fun v => cmp x v =? 0)%Z (L ++ y :: M) = Some y.
Proof.
  intros SO E0. apply sorted_mid in SO. destruct SO as (_ & _ & SL & _). rewrite find_app, find_none; [cbn [List.find]; now rewrite E0|].
  eapply Forall_impl; [|exact SL]. intros v Hv. cbn beta in Hv. apply Z.eqb_neq. pose proof (cmp_gt x y v). lia.
Qed.

(** the sorted list with x added *)
Definition added (x : nat) (L : list nat) : list nat := filter (fun y => 0 <? cmp x y)%Z L ++ x :: filter (fun y => cmp x y <? 0)%Z L.
Definition found (x : nat) (L : list nat) : nat := match List.find (fun y => cmp x y =? 0)%Z L with Some y => y | None => 0 end.

Lemma insert_ok fuel h T x n0 F : rbtree T -> sorted cmp (inorder T) -> height T + 3 <= fuel -> holds h (nodes T 0 ++ (x, n0) :: F) ->
  match List.find (fun y => cmp x y =? 0)%Z (inorder T) with
  | Some y => insert fuel cmp h (root T) x = Ok (h, root T, y)
  | None => exists h' T', insert fuel cmp h (root T) x = Ok (h', root T', 0) /\ holds h' (nodes T' 0 ++ F) /\ rbtree T' /\ inorder T' = added x (inorder T) /\ sorted cmp (inorder T')
  end.
Proof.
  intros RB SO FU H. unfold insert.
  destruct (descend_ok h ((x, n0) :: F) x T [] fuel 0%Z ltac:(lia) H SO (Forall_nil _) (Forall_nil _) I) as [(z & c & l & y & r & ED & EP & E0)|(z & comp & ED & EP & DI & FL & FR)];
    cbn [zroot plug] in *; rewrite ED; cbn [obind].
  - assert (IO : inorder T = (zleft z ++ inorder l) ++ y :: inorder r ++ zright z) by (rewrite <- EP, inorder_plug; cbn [inorder]; rewrite <- !app_assoc; reflexivity).
    rewrite IO in SO |- *. rewrite (find_eq _ x y _ SO E0). rewrite <- EP in H. apply rep_plug in H. flat H. nz y H. reflexivity.
  - assert (IO : inorder T = zleft z ++ zright z) by (rewrite <- EP, inorder_plug; reflexivity).
    rewrite IO. rewrite find_app, (find_none _ (zleft z)), (find_none _ (zright z)).
    2:{ eapply Forall_impl; [|exact FR]. intros v Hv. cbn beta in Hv. apply Z.eqb_neq. lia. }
    2:{ eapply Forall_impl; [|exact FL]. intros v Hv. cbn beta in Hv. apply Z.eqb_neq. lia. }
    assert (ADD : added x (zleft z ++ zright z) = zleft z ++ x :: zright z).
    { unfold added. rewrite !filter_app. rewrite (filter_all _ (zleft z)), (filter_none _ (zright z)), (filter_none _ (zleft z)), (filter_all _ (zright z)); [now rewrite app_nil_r| | | |];
        (eapply Forall_impl; [|first [exact FR|exact FL]]); intros v Hv; cbn beta in *; (apply Z.ltb_lt || apply Z.ltb_ge); lia. }
    cbn [Nat.eqb negb]. rewrite <- EP in H. apply rep_plug in H. cbn [root] in H. flat H.
    assert (HR : root T = top z 0) by (rewrite <- EP; apply root_plug). rewrite HR. destruct n0 as [c0 l0 r0 p0].
    st H. st H. st H. st H. clear h0 h1 h2. rename h3 into h0.
    destruct RB as [BT (m0 & RT)]. rewrite <- EP in RT, BT. destruct (plug_zok z E m0 RT BT) as (n & ZO & RE & _). cbn [rb] in RE. subst n.
    assert (STEP : exists h1, (if zroot z =? 0 then Ok (h0, x) else if (comp <? 0)%Z then h <- setl h0 (zroot z) x ;; Ok (h, top z 0) else h <- setr h0 (zroot z) x ;; Ok (h, top z 0)) = Ok (h1, top z x)
       /\ holds h1 (znodes z x ++ nodes (N red E x E) (zroot z) ++ F)).
    { destruct z as [|[[[[|] cp] p] s] z]; cbn [zroot top dirok] in *.
      - cbn [Nat.eqb]. fin H.
      - flat H. nz p H. rewrite (proj2 (Z.ltb_lt _ _) DI). st H. fin H.
      - flat H. nz p H. replace (comp <? 0)%Z with false by (symmetry; apply Z.ltb_ge; lia). st H. fin H. }
    destruct STEP as (h1 & E1 & H1). rewrite E1. cbn [obind].
    pose proof (height_plug z E) as HP. rewrite EP in HP. cbn [height] in HP.
    destruct (insert_fix (length z) z (le_n _) fuel h1 E x E 0 F ltac:(lia) ZO ltac:(cbn [rb blackt]; auto) H1) as (h' & hd & E' & T' & A & B & C & D).
    rewrite E'. cbn [obind]. exists h', T'. split; [now rewrite A|]. split; [exact B|]. split; [exact C|].
    assert (IT : inorder T' = zleft z ++ x :: zright z) by (rewrite D, inorder_plug; reflexivity). rewrite ADD. split; [exact IT|]. rewrite IT.
    rewrite IO in SO. apply sorted_app in SO. destruct SO as (S1 & S2 & S3). apply sorted_app. split; [exact S1|]. split; [constructor; assumption|].
    rewrite Forall_forall in FL. intros u v Iu [<-|Iv]; [|now apply S3]. apply cmp_anti. now apply FL.
Qed.
Lemma inorder_nodes t : forall p, Permutation (inorder t) (map fst (nodes t p)).
Proof.
  induction t as [|c l IHl a r IHr]; intros p; cbn [inorder nodes map fst]; [reflexivity|]. rewrite map_app, <- (IHl a), <- (IHr a). symmetry. apply Permutation_middle.
Qed.

Lemma find_from_ok h x : forall t F p fuel, height t < fuel -> holds h (nodes t p ++ F) -> sorted cmp (inorder t) -> find_from fuel cmp h x (root t) = Ok (found x (inorder t)).
Proof.
  unfold found. induction t as [|c l IHl a r IHr]; intros F p fuel FU H SO; (destruct fuel as [|fuel]; [lia|]); cbn [find_from root height inorder] in *; [reflexivity|].
  assert (LA : a <> 0 /\ load h a = Ok (mknode c (root l) (root r) p)) by (flat H; bring a H; apply (holds_head _ _ _ _ H)). destruct LA as [NA LA].
  rewrite (proj2 (Nat.eqb_neq _ _) NA), LA. cbn [obind left right]. pose proof SO as SO'. apply sorted_mid in SO'. destruct SO' as (S1 & S2 & S3 & S4).
  assert (HL : holds h (nodes l a ++ (a, mknode c (root l) (root r) p) :: nodes r a ++ F)) by (revert H; apply holds_perm; perm).
  assert (HR : holds h (nodes r a ++ (a, mknode c (root l) (root r) p) :: nodes l a ++ F)) by (revert H; apply holds_perm; perm).
  destruct (cmp x a <? 0)%Z eqn:C1; [apply Z.ltb_lt in C1|apply Z.ltb_ge in C1].
  - rewrite (IHl _ a fuel ltac:(lia) HL S1). rewrite find_app. destruct (List.find _ (inorder l)); [reflexivity|]. rewrite find_none; [reflexivity|].
    constructor; [apply Z.eqb_neq; lia|]. eapply Forall_impl; [|exact S4]. intros v Hv. cbn beta in Hv. apply Z.eqb_neq. pose proof (cmp_lt x a v). lia.
  - destruct (0 <? cmp x a)%Z eqn:C2; [apply Z.ltb_lt in C2|apply Z.ltb_ge in C2].
    + rewrite (IHr _ a fuel ltac:(lia) HR S2). rewrite find_app, (find_none _ (inorder l)); [cbn [List.find]; replace (cmp x a =? 0)%Z with false by (symmetry; apply Z.eqb_neq; lia); reflexivity|].
      eapply Forall_impl; [|exact S3]. intros v Hv. cbn beta in Hv. apply Z.eqb_neq. pose proof (cmp_gt x a v). lia.
    + rewrite (find_eq _ x a _ SO ltac:(lia)). reflexivity.
Qed.
(** the first element not less than x *)
Definition ceiling (x res : nat) (L : list nat) : nat := match List.find (fun y => cmp x y <=? 0)%Z L with Some y => y | None => res end.
Lemma nfind_from_ok h x : forall t F p fuel res, height t < fuel -> holds h (nodes t p ++ F) -> sorted cmp (inorder t) -> nfind_from fuel cmp h x (root t) res = Ok (ceiling x res (inorder t)).
Proof.
  unfold ceiling. induction t as [|c l IHl a r IHr]; intros F p fuel res FU H SO; (destruct fuel as [|fuel]; [lia|]); cbn [nfind_from root height inorder] in *; [reflexivity|].
  assert (LA : a <> 0 /\ load h a = Ok (mknode c (root l) (root r) p)) by (flat H; bring a H; apply (holds_head _ _ _ _ H)). destruct LA as [NA LA].
  rewrite (proj2 (Nat.eqb_neq _ _) NA), LA. cbn [obind left right]. pose proof SO as SO'. apply sorted_mid in SO'. destruct SO' as (S1 & S2 & S3 & S4).
  assert (HL : holds h (nodes l a ++ (a, mknode c (root l) (root r) p) :: nodes r a ++ F)) by (revert H; apply holds_perm; perm).
  assert (HR : holds h (nodes r a ++ (a, mknode c (root l) (root r) p) :: nodes l a ++ F)) by (revert H; apply holds_perm; perm).
  assert (LESS : (0 <= cmp x a)%Z -> List.find (fun y => (cmp x y <=? 0)%Z) (inorder l) = None).
  { intros GE. apply find_none. eapply Forall_impl; [|exact S3]. intros v Hv. cbn beta in Hv. apply Z.leb_gt. pose proof (cmp_gt x a v). lia. }
  destruct (cmp x a <? 0)%Z eqn:C1; [apply Z.ltb_lt in C1|apply Z.ltb_ge in C1].
  - rewrite (IHl _ a fuel a ltac:(lia) HL S1). rewrite find_app. destruct (List.find _ (inorder l)); [reflexivity|]. cbn [List.find]. replace (cmp x a <=? 0)%Z with true by (symmetry; apply Z.leb_le; lia). reflexivity.
  - destruct (0 <? cmp x a)%Z eqn:C2; [apply Z.ltb_lt in C2|apply Z.ltb_ge in C2].
    + rewrite (IHr _ a fuel res ltac:(lia) HR S2). rewrite find_app, (LESS ltac:(lia)). cbn [List.find]. replace (cmp x a <=? 0)%Z with false by (symmetry; apply Z.leb_gt; lia). reflexivity.
    + rewrite find_app, (LESS ltac:(lia)). cbn [List.find]. replace (cmp x a <=? 0)%Z with true by (symmetry; apply Z.leb_le; lia). reflexivity.
Qed.
End Cmp.

Lemma minmax_ok h val : forall t F p par fuel, height t < fuel -> holds h (nodes t p ++ F) ->
  minmax_from fuel h val (root t) par = Ok (if (val <? 0)%Z then hd par (inorder t) else last (inorder t) par).
Proof.
  induction t as [|c l IHl a r IHr]; intros F p par fuel FU H; (destruct fuel as [|fuel]; [lia|]); cbn [minmax_from root height inorder] in *; [cbn [Nat.eqb hd last]; now destruct (val <? 0)%Z|].
  assert (LA : a <> 0 /\ load h a = Ok (mknode c (root l) (root r) p)) by (flat H; bring a H; apply (holds_head _ _ _ _ H)). destruct LA as [NA LA].
  rewrite (proj2 (Nat.eqb_neq _ _) NA), LA. cbn [obind left right].
  assert (HL : holds h (nodes l a ++ (a, mknode c (root l) (root r) p) :: nodes r a ++ F)) by (revert H; apply holds_perm; perm).
  assert (HR : holds h (nodes r a ++ (a, mknode c (root l) (root r) p) :: nodes l a ++ F)) by (revert H; apply holds_perm; perm).
  destruct (val <? 0)%Z eqn:V.
  - rewrite (IHl _ a a fuel ltac:(lia) HL). destruct (inorder l); reflexivity.
  - rewrite (IHr _ a a fuel ltac:(lia) HR).
    f_equal. generalize (inorder l). clear. intros L. induction L as [|v L IH]; cbn [app].
    + destruct (inorder r) as [|u M]; [reflexivity|]. cbn [last]. revert u. induction M as [|w M IHM]; intros u; [reflexivity|]. cbn [last] in *. apply IHM.
    + rewrite IH. destruct (L ++ a :: inorder r) eqn:Q; [destruct L; discriminate Q|]. reflexivity.
Qed.
