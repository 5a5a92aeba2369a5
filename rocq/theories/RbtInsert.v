(** zt_tree.c: red-black invariants and the repair after an insertion *)
From Verif Require Import Prelude Heap RbtModel RbtRep.
From Coq Require Import Permutation.

Definition blackt (t : tree) : Prop := match t with N red _ _ _ => False | _ => True end.
(** black height n, no red node with a red child *)
Fixpoint rb (n : nat) (t : tree) : Prop :=
  match t with
  | E => n = 0
  | N red l _ r => rb n l /\ rb n r /\ blackt l /\ blackt r
  | N black l _ r => match n with O => False | S m => rb m l /\ rb m r end
  end.
Definition zblack (z : list frame) : Prop := match z with (_, black, _, _) :: _ => True | _ => False end.
(** a context for a tree of black height n (whose root is black if the innermost frame is red) *)
Fixpoint zok (n : nat) (z : list frame) : Prop :=
  match z with
  | [] => True
  | (_, red, _, s) :: z => rb n s /\ blackt s /\ zblack z /\ zok n z
  | (_, black, _, s) :: z => rb n s /\ zok (S n) z
  end.
Definition rbtree (t : tree) : Prop := blackt t /\ exists n, rb n t.

Lemma zok_plug z : forall n t, zok n z -> rb n t -> (blackt t \/ zblack z) -> exists m, rb m (plug z t) /\ blackt (plug z t).
Proof.
  induction z as [|[[[[|] [|]] a] s] z IH]; intros n t Z R B; cbn [plug fill zok zblack] in *.
  - exists n. destruct B; [auto|contradiction].
  - destruct Z as (A1 & A2 & A3 & A4). destruct B as [B|[]]. apply (IH n); [exact A4|cbn [rb]; auto|now right].
  - destruct Z as (A1 & A2). apply (IH (S n)); [exact A2|cbn [rb]; auto|now left].
  - destruct Z as (A1 & A2 & A3 & A4). destruct B as [B|[]]. apply (IH n); [exact A4|cbn [rb]; auto|now right].
  - destruct Z as (A1 & A2). apply (IH (S n)); [exact A2|cbn [rb]; auto|now left].
Qed.
Lemma plug_app z1 z2 t : plug (z1 ++ z2) t = plug z2 (plug z1 t).
Proof. revert t. induction z1 as [|f z1 IH]; intros t; [reflexivity|]. cbn [app plug]. apply IH. Qed.

(** the last assignment, colour of the root := black, when the root is black already *)
Lemma black_head h T F : blackt T -> T <> E -> holds h (nodes T 0 ++ F) -> exists h', setc h (root T) black = Ok h' /\ holds h' (nodes T 0 ++ F).
Proof.
  intros B NE H. destruct T as [|[|] l a r]; [congruence|contradiction|]. cbn [root]. flat H. st H. fin H.
Qed.
Definition repaired (z : list frame) (t : tree) (F : cellsof) (h' : nheap) (head' : nat) : Prop :=
  exists T, head' = root T /\ holds h' (nodes T 0 ++ F) /\ rbtree T /\ inorder T = inorder (plug z t).

Lemma insert_exit fuel h z f l x r n F : zblack (f :: z) -> zok n (f :: z) -> rb n (N red l x r) ->
  holds h (znodes (f :: z) x ++ nodes (N red l x r) (zroot (f :: z)) ++ F) ->
  exists h' head', insert_colour (S fuel) h (top (f :: z) x) x = Ok (h', head') /\ repaired (f :: z) (N red l x r) F h' head'.
Proof.
  intros ZB ZO R H. destruct f as [[[d [|]] p] s]; [contradiction|].
  assert (HT : holds h (nodes (plug ((d, black, p, s) :: z) (N red l x r)) 0 ++ F)) by (apply rep_plug; exact H).
  assert (TR : root (plug ((d, black, p, s) :: z) (N red l x r)) = top ((d, black, p, s) :: z) x) by (rewrite root_plug; reflexivity).
  set (T := plug ((d, black, p, s) :: z) (N red l x r)) in *.
  assert (TN : T <> E) by (intros X; apply plug_E in X; destruct X; discriminate).
  destruct (zok_plug _ n (N red l x r) ZO R ltac:(right; exact ZB)) as (m & RT & BT). fold T in RT, BT.
  assert (STEP : insert_colour (S fuel) h (top ((d, black, p, s) :: z) x) x = h <- setc h (root T) black ;; Ok (h, root T)).
  { cbn [insert_colour]. rewrite TR. clear HT TR RT BT. destruct d; (ld H; unfold red_node; cbn [zroot]; nz p H; ld H; reflexivity). }
  rewrite STEP. destruct (black_head h T F BT TN HT) as (h' & E' & H'). rewrite E'. cbn [obind]. exists h', (root T). split; [reflexivity|].
  exists T. split; [reflexivity|]. split; [exact H'|]. split; [split; [exact BT|now exists m]|reflexivity].
Qed.

Lemma red_node_black h t p L : blackt t -> holds h (nodes t p ++ L) -> red_node h (root t) = Ok false.
Proof.
  intros B H. destruct t as [|[|] l a r]; [reflexivity|contradiction|]. unfold red_node. cbn [root]. flat H. nz a H. ld H. reflexivity.
Qed.
Lemma red_node_red h l a r p L : holds h (nodes (N red l a r) p ++ L) -> red_node h a = Ok true.
Proof. intros H. unfold red_node. flat H. nz a H. ld H. reflexivity. Qed.
Ltac rdb t p H := (* the subtree t below p is black *)
  lazymatch type of H with
  | holds ?h ?L => let L' := drop (nodes t p) L in rewrite (red_node_black h t p L') by (assumption || (revert H; apply holds_perm; perm)); cbn [obind negb]
  end.

Lemma col_dec (t : tree) : (exists l a r, t = N red l a r) \/ blackt t.
Proof. destruct t as [|[|] l a r]; [right; exact I|left; eauto|right; exact I]. Qed.

Ltac rotl z H := lazymatch goal with |- context [rotate_left ?h ?hd ?x] =>
  lazymatch type of H with holds h (_ ++ nodes (N ?cx ?a x (N ?cy ?b ?y ?d)) _ ++ ?F) =>
    let h' := fresh "h" in let EQ := fresh in let H' := fresh in destruct (rotate_left_ok h z cx a x cy b y d F H) as (h' & EQ & H'); change hd with (top z x); rewrite EQ; clear EQ H; rename H' into H; cbn [obind] end end.
Ltac rotr z H := lazymatch goal with |- context [rotate_right ?h ?hd ?y] =>
  lazymatch type of H with holds h (_ ++ nodes (N ?cy (N ?cx ?a ?x ?b) y ?d) _ ++ ?F) =>
    let h' := fresh "h" in let EQ := fresh in let H' := fresh in destruct (rotate_right_ok h z cx a x cy b y d F H) as (h' & EQ & H'); change hd with (top z y); rewrite EQ; clear EQ H; rename H' into H; cbn [obind] end end.
(** put the assertion in the form of the subtree t in context z *)
Ltac form z t F H := lazymatch type of H with holds ?h _ => let P := fresh in assert (P : holds h (znodes z (root t) ++ nodes t (zroot z) ++ F)) by (revert H; apply holds_perm; perm); clear H; rename P into H; cbn [root] in H end.

Ltac ino := cbn [plug fill]; rewrite !inorder_plug; cbn [inorder]; repeat (progress (cbn [app]; rewrite <- ?app_assoc)); reflexivity.
Ltac done_with E' A B C D := do 2 eexists; split; [exact E'|]; eexists; split; [exact A|]; split; [exact B|]; split; [exact C|]; rewrite D; ino.
(** the subtree N red ul ua ur below g is red *)
Ltac rdr ul ua ur g H := flat H; lazymatch type of H with
  | holds ?h ?L => let L1 := without ua L in let L2 := drop (nodes ul ua) L1 in let L3 := drop (nodes ur ua) L2 in
     cbn [root]; rewrite (red_node_red h ul ua ur g L3) by (revert H; apply holds_perm; perm); cbn [obind negb] end.
Ltac eqb_no NE := rewrite (proj2 (Nat.eqb_neq _ _) NE); cbn [obind].

Lemma insert_fix : forall k z, length z <= k -> forall fuel h l x r n F, k + 2 <= fuel -> zok n z -> rb n (N red l x r) ->
  holds h (znodes z x ++ nodes (N red l x r) (zroot z) ++ F) ->
  exists h' head', insert_colour fuel h (top z x) x = Ok (h', head') /\ repaired z (N red l x r) F h' head'.
Proof.
  induction k as [k IH] using lt_wf_ind. intros z LZ fuel h l x r n F FU ZO R H.
  destruct fuel as [|fuel]; [lia|]. destruct z as [|[[[d [|]] p] s] z].
  - (* the root *) clear IH. cbn [insert_colour]. cbn [top zroot] in *. ld H. unfold red_node. cbn [Nat.eqb obind negb]. st H. exists h0, x. split; [reflexivity|].
    exists (N black l x r). split; [reflexivity|]. split; [revert H; apply holds_perm; perm|]. split; [split; [exact I|exists (S n); cbn [rb] in *; tauto]|reflexivity].
  - (* red parent *)
    destruct ZO as (Rs & Bs & ZB & ZO). destruct z as [|[[[d2 [|]] g] u] z]; [contradiction|contradiction|]. clear ZB. destruct ZO as [Ru ZO].
    cbn [length] in LZ. destruct R as (Rl & Rr & Bl & Br). cbn [insert_colour].
    destruct d2; flat H; cbn [top].
    + (* p left of g *)
      assert (GO : insert_colour (S fuel) h (top z g) x = insert_colour (S fuel) h (top z g) x) by reflexivity.
      destruct d; flat H; (ld H; unfold red_node at 1; nz p H; ld H; ld H; rewrite Nat.eqb_refl; clear GO; destruct (col_dec u) as [(ul & ua & ur & ->)|Bu];
        [rdr ul ua ur g H; st H; unfold set_blackred; st H; st H|rdb u g H]).
      * destruct (IH (k - 2) ltac:(lia) z ltac:(lia) fuel h2 (N black (N red l x r) p s) g (N black ul ua ur) (S n) F ltac:(lia) ZO) as (h' & hd & E' & T & A & B & C & D);
          [cbn [rb blackt] in *; tauto|revert H; apply holds_perm; perm|]. done_with E' A B C D.
      * neroot x s p H NE. eqb_no NE. unfold set_blackred. st H. st H.
        form z (N red (N black (N red l x r) p s) g u) F H. rotr z H.
        form ((Lf, black, p, N red s g u) :: z) (N red l x r) F H. destruct fuel as [|fuel]; [lia|].
        destruct (insert_exit fuel h2 z (Lf, black, p, N red s g u) l x r n F I) as (h' & hd & E' & T & A & B & C & D); [cbn [zok rb] in *; tauto|cbn [rb]; tauto|exact H|]. done_with E' A B C D.
      * destruct (IH (k - 2) ltac:(lia) z ltac:(lia) fuel h2 (N black s p (N red l x r)) g (N black ul ua ur) (S n) F ltac:(lia) ZO) as (h' & hd & E' & T & A & B & C & D);
          [cbn [rb blackt] in *; tauto|revert H; apply holds_perm; perm|]. done_with E' A B C D.
      * rewrite Nat.eqb_refl. form ((Lf, black, g, u) :: z) (N red s p (N red l x r)) F H. rotl ((Lf, black, g, u) :: z) H.
        unfold set_blackred. st H. st H. cbn [top]. form z (N red (N black (N red s p l) x r) g u) F H. rotr z H.
        form ((Lf, black, x, N red r g u) :: z) (N red s p l) F H. destruct fuel as [|fuel]; [lia|].
        destruct (insert_exit fuel h3 z (Lf, black, x, N red r g u) s p l n F I) as (h' & hd & E' & T & A & B & C & D); [cbn [zok rb] in *; tauto|cbn [rb]; tauto|exact H|]. done_with E' A B C D.
    + (* p right of g *)
      destruct d; flat H; (ld H; unfold red_node at 1; nz p H; ld H; ld H; neroot p u g H NP; eqb_no (not_eq_sym NP); destruct (col_dec u) as [(ul & ua & ur & ->)|Bu];
        [rdr ul ua ur g H; st H; unfold set_blackred; st H; st H|rdb u g H]).
      * destruct (IH (k - 2) ltac:(lia) z ltac:(lia) fuel h2 (N black ul ua ur) g (N black (N red l x r) p s) (S n) F ltac:(lia) ZO) as (h' & hd & E' & T & A & B & C & D);
          [cbn [rb blackt] in *; tauto|revert H; apply holds_perm; perm|]. done_with E' A B C D.
      * rewrite Nat.eqb_refl. form ((Rt, black, g, u) :: z) (N red (N red l x r) p s) F H. rotr ((Rt, black, g, u) :: z) H.
        unfold set_blackred. st H. st H. cbn [top]. form z (N red u g (N black l x (N red r p s))) F H. rotl z H.
        form ((Rt, black, x, N red u g l) :: z) (N red r p s) F H. destruct fuel as [|fuel]; [lia|].
        destruct (insert_exit fuel h3 z (Rt, black, x, N red u g l) r p s n F I) as (h' & hd & E' & T & A & B & C & D); [cbn [zok rb] in *; tauto|cbn [rb]; tauto|exact H|]. done_with E' A B C D.
      * destruct (IH (k - 2) ltac:(lia) z ltac:(lia) fuel h2 (N black ul ua ur) g (N black s p (N red l x r)) (S n) F ltac:(lia) ZO) as (h' & hd & E' & T & A & B & C & D);
          [cbn [rb blackt] in *; tauto|revert H; apply holds_perm; perm|]. done_with E' A B C D.
      * neroot x s p H NE. eqb_no NE. unfold set_blackred. st H. st H.
        form z (N red u g (N black s p (N red l x r))) F H. rotl z H.
        form ((Rt, black, p, N red u g s) :: z) (N red l x r) F H. destruct fuel as [|fuel]; [lia|].
        destruct (insert_exit fuel h2 z (Rt, black, p, N red u g s) l x r n F I) as (h' & hd & E' & T & A & B & C & D); [cbn [zok rb] in *; tauto|cbn [rb]; tauto|exact H|]. done_with E' A B C D.
  - (* black parent *)
    destruct (insert_exit fuel h z (d, black, p, s) l x r n F I ZO R H) as (h' & hd & E' & RP). now exists h', hd.
Qed.
