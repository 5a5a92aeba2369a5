(** C77: when memory runs out. *)
From Coq Require Import Permutation.
From Verif Require Import Prelude CstrModel CstrSpec CstrTok PropCstr HeapModel AraceSpec OomModel OomSpec OomProofs.
Local Open Scope nat_scope.

(** what a function that returns an array of [pieces] may do, the requests from [asked m] on being granted as [gives] says and [L] being in use before:
    it returns some of the pieces, in order, one less for each request refused, and freeing the array gives everything back; or it aborts the program, and then a request was refused;
    or it is undefined, and then the copy of the string, its third request, was refused *)
Definition does (gives : nat -> bool) (m : mem) (L : list (nat * blk)) (pieces : list (list Z)) (r : outcome (nat * mem)) : Prop :=
  match r with
  | Ok (a, m') => exists kept, strings m' a = Ok kept /\ sub kept pieces /\ length pieces = length kept + refused gives (asked m) (asked m') /\ exists m'', free_all m' a = Ok m'' /\ in_use m'' L
  | Abort => exists k, asked m <= k /\ gives k = false
  | UB => gives (2 + asked m) = false
  | Loop => False
  end.
Lemma whole_does pick gives m L str ps : good pick -> in_use m L -> does gives m L ps (whole pick gives m str ps).
Proof.
  intros G O. destruct (whole_ok pick gives G m str ps L O) as [(a & m' & kept & E & H)|[(E & H)|(E & H)]]; rewrite E; cbn [does]; [|exact H..]. exists kept. exact H.
Qed.
Theorem C77_split : forall pick gives m L str delim, good pick -> in_use m L -> does gives m L (filter nonempty (fields delim str)) (split pick gives m str delim).
Proof. intros pick gives m L str delim G O. rewrite (split_whole pick gives m str delim _ (C14_split str delim)). now apply whole_does. Qed.
Theorem C77_cut : forall pick gives m L str d keep, good pick -> in_use m L -> d <> 0%Z -> does gives m L (cuts d keep str) (cut pick gives m str d keep).
Proof. intros pick gives m L str d keep G O D. rewrite (cut_whole pick gives m str d keep _ (C14_cut str d keep D)). now apply whole_does. Qed.
Theorem C77_tok : forall pick gives m L str c d, good pick -> in_use m L -> (0 < d < 128)%Z -> (0 < c < 256)%Z ->
  does gives m L (prefixes d (if (c =? d)%Z then str else str ++ [c])) (tok pick gives m (str ++ [c]) d).
Proof. intros pick gives m L str c d G O D C. rewrite (tok_whole pick gives m (str ++ [c]) d _ (C14_tok str c d D C)). now apply whole_does. Qed.

(** With memory for every request, all pieces are there. *)
Lemma sub_same {A} (a b : list A) : sub a b -> length a = length b -> a = b.
Proof.
  assert (B : forall a b : list A, sub a b -> length a <= length b) by (induction 1; cbn [length]; lia).
  induction 1 as [|x a b S IH|x a b S IH]; cbn [length]; intros E; [reflexivity|f_equal; apply IH; lia|]. apply B in S. lia.
Qed.
Lemma enough gives m L ps r : (forall k, gives k = true) -> does gives m L ps r -> exists a m', r = Ok (a, m') /\ strings m' a = Ok ps.
Proof.
  intros G D. destruct r as [[a m']| | |]; cbn [does] in D; [|destruct D as (k & _ & D); rewrite G in D; discriminate|rewrite G in D; discriminate|contradiction].
  destruct D as (kept & E & S & Lk & _). exists a, m'. split; [reflexivity|]. rewrite E. f_equal. apply (sub_same _ _ S). assert (Z : refused gives (asked m) (asked m') = 0). { unfold refused. induction (seq _ _) as [|k l IH]; [reflexivity|]. cbn [filter]. rewrite G. exact IH. } lia.
Qed.
Theorem C77_enough : forall pick gives m L, good pick -> in_use m L -> (forall k, gives k = true) ->
  (forall str delim, exists a m', split pick gives m str delim = Ok (a, m') /\ strings m' a = Ok (filter nonempty (fields delim str))) /\
  (forall str d keep, d <> 0%Z -> exists a m', cut pick gives m str d keep = Ok (a, m') /\ strings m' a = Ok (cuts d keep str)) /\
  (forall str c d, (0 < d < 128)%Z -> (0 < c < 256)%Z -> exists a m', tok pick gives m (str ++ [c]) d = Ok (a, m') /\ strings m' a = Ok (prefixes d (if (c =? d)%Z then str else str ++ [c]))).
Proof.
  intros pick gives m L G O Y. split; [|split]; intros; (eapply enough; [exact Y|]); [eapply C77_split|eapply C77_cut|eapply C77_tok]; eassumption.
Qed.

(** The claim that a result is complete or a failure is reported: refuted. A piece that cannot be copied is left out and nothing says so (zt_ptr_array_add takes NULL and answers 0). *)
Theorem C77_lost_refuted : exists gives a m' m'', split next gives (mkmem (mkhp [] 0) 0) [97; 44; 98; 44; 99]%Z [44]%Z = Ok (a, m') /\ strings m' a = Ok [[97]; [99]]%Z /\ free_all m' a = Ok m'' /\ in_use m'' [] /\ refused gives 0 (asked m') = 1.
Proof.
  exists (fun k => negb (k =? 4)). eexists _, _, _. split; [vm_compute; reflexivity|]. split; [vm_compute; reflexivity|]. split; [vm_compute; reflexivity|]. split; [|vm_compute; reflexivity]. vm_compute. repeat split; try constructor. intros [].
Qed.
(** Without memory for the private copy each of the three reads through NULL. *)
Theorem C77_copy_refuted : forall pick gives m L, good pick -> in_use m L -> gives (asked m) = true -> gives (1 + asked m) = true -> gives (2 + asked m) = false ->
  (forall str delim, split pick gives m str delim = UB) /\ (forall str d keep, cut pick gives m str d keep = UB) /\ (forall str d, tok pick gives m str d = UB).
Proof.
  intros pick gives m L G O A B C. destruct (init_ok pick gives G m L O) as [(a & m1 & E & _ & As & _)|(_ & k & K & Gk)].
  - assert (R : forall c, request pick gives m1 c = (0, mkmem (heap m1) (S (asked m1)))) by (intros c; apply request_no; rewrite As; exact C).
    repeat split; intros; unfold split, cut, tok; rewrite E; cbn [obind]; rewrite R; cbn [Nat.eqb]; try reflexivity. destruct (rev str); reflexivity.
  - exfalso. assert (k = asked m \/ k = S (asked m)) as [-> | ->] by lia; cbn [Nat.add] in *; congruence.
Qed.

(** A string array option given [args]: the array has all of them for which there was memory, in order, NULL-terminated inside its block; nothing else is left in use; or the program is aborted. *)
Theorem C77_array : forall pick gives m L args, good pick -> in_use m L -> args <> [] ->
  match opt_arrays pick gives m 0 args with
  | Ok (p, m') => exists kept, terminated m' p kept /\ sub kept args /\ length args = length kept + refused gives (asked m) (asked m') /\ exists ptrs n l, in_use m' ((p, Slots n l) :: combine ptrs (map Text kept) ++ L) /\ length ptrs = length kept
  | Abort => exists k, asked m <= k /\ gives k = false
  | _ => False
  end.
Proof.
  intros pick gives m L args G O N. destruct (arrays_ok pick gives G L args m 0 []) as [(e & m' & k2 & E & Ne & K & Sb & A & R)|(E & H)]; [left; auto|..]; rewrite E; [|exact H].
  cbn [app] in K. assert (TB : terminated m' e k2 /\ exists ptrs n l, owns (heap m') ((e, Slots n l) :: combine ptrs (map Text k2) ++ L) /\ length ptrs = length k2) by (eapply keeps_read; eauto). destruct TB as (T & B). exists k2. auto.
Qed.
(** A string option given [args]: the value is the last, or NULL if there was no memory for it; a copy of every one of them stays in use. *)
Theorem C77_string : forall pick gives m L pre a, good pick -> in_use m L -> exists p m' ptrs kept, opt_strings pick gives m 0 (pre ++ [a]) = (p, m') /\
  (if gives (length pre + asked m) then text_at m' p = Ok a /\ p <> 0 else p = 0) /\
  in_use m' (combine ptrs (map Text kept) ++ L) /\ length ptrs = length kept /\ sub kept (pre ++ [a]) /\ length (pre ++ [a]) = length kept + refused gives (asked m) (asked m').
Proof.
  intros pick gives m L pre a G O. destruct (strings_ok pick gives G (pre ++ [a]) m 0 L O) as (q & m' & ptrs & kept & E & O2 & Lk & Sb & _ & R & _ & Q). exists q, m', ptrs, kept. split; [exact E|]. split; [exact (Q pre a eq_refl)|]. auto.
Qed.
(** so a string option given twice leaves a copy that nothing points to *)
Theorem C77_string_refuted : exists p q m', opt_strings next (fun _ => true) (mkmem (mkhp [] 0) 0) 0 [[97]; [98]]%Z = (p, m') /\ text_at m' p = Ok [98]%Z /\ q <> p /\ text_at m' q = Ok [97]%Z /\ in_use m' [(p, Text [98]%Z); (q, Text [97]%Z)].
Proof.
  exists 2, 1. eexists. split; [vm_compute; reflexivity|]. split; [vm_compute; reflexivity|]. split; [discriminate|]. split; [vm_compute; reflexivity|]. split; [reflexivity|]. vm_compute. split; [repeat constructor; cbn [In]; intuition discriminate|intuition discriminate].
Qed.

(** ** zt_buf *)
From Verif Require Import Blocks BufModel.
Local Open Scope Z_scope.
(** What fits the room there is needs no memory. *)
Theorem C77_buf_fits : forall ok b d, Z.of_nat (length d) <= buf_unused b -> add_o ok b d = buf_add b d /\ reserve_o ok b (Z.of_nat (length d)) = Ok b.
Proof. intros ok b d H. unfold add_o, buf_add, reserve_o. rewrite Z.gtb_ltb. replace (buf_unused b <? Z.of_nat (length d)) with false by (symmetry; now apply Z.ltb_ge). split; reflexivity. Qed.
(** With memory the functions are those of C16. *)
Theorem C77_buf_enough : forall b d n, add_o true b d = buf_add b d /\ reserve_o true b n = buf_reserve b n.
Proof. intros. split; reflexivity. Qed.
(** Without, an addition that has to grow the buffer copies to NULL. *)
Theorem C77_buf_add_refuted : forall b d, Z.of_nat (length d) > buf_unused b -> add_o false b d = UB.
Proof.
  intros b d H. unfold add_o. rewrite Z.gtb_ltb. replace (buf_unused b <? Z.of_nat (length d)) with true by (symmetry; apply Z.ltb_lt; lia). unfold expand_o, realloc.
  assert (U : 0 <= buf_unused b) by (unfold buf_unused; apply Z.mod_pos_bound; reflexivity). destruct d as [|x d]; [cbn in H; lia|].
  destruct (blk b) as [l|]; [destruct (off b =? 0); [|reflexivity]|]; cbn [obind block blk off len]; reflexivity.
Qed.
(** After a refused zt_buf_reserve the buffer says it has exactly the room asked for (at least 1024 bytes); any addition that fits this room is made at NULL, whatever memory there is by then. *)
Theorem C77_buf_room : forall b n d ok, (blk b = None \/ off b = 0) -> 0 <= len b -> n > buf_unused b -> len b + Z.max 1024 n < 2 ^ 64 -> 0 < Z.of_nat (length d) <= Z.max 1024 n ->
  exists b', reserve_o false b n = Ok b' /\ buf_unused b' = Z.max 1024 n /\ buf_length b' = buf_length b /\ add_o ok b' d = UB.
Proof.
  intros b n d ok B L H W D. unfold reserve_o. rewrite Z.gtb_ltb. replace (buf_unused b <? n) with true by (symmetry; apply Z.ltb_lt; lia). unfold expand_o.
  assert (R : exists x, BufModel.realloc b 0 = Ok x) by (unfold BufModel.realloc; destruct (blk b); [|eauto]; destruct B as [B|B]; [discriminate|]; rewrite B; cbn [Z.eqb]; eauto). destruct R as [x ->]. cbn [obind].
  assert (M : (if n <? 1024 then 1024 else n) = Z.max 1024 n) by (destruct (Z.ltb_spec n 1024); lia). rewrite M. eexists. split; [reflexivity|].
  change W64 with (2 ^ 64) in *. assert (U : buf_unused (mkbuf (len b) ((len b + Z.max 1024 n) mod 2 ^ 64) None 0) = Z.max 1024 n). { unfold buf_unused. cbn [max len]. change W64 with (2 ^ 64). rewrite (Z.mod_small (len b + _)) by lia. replace (len b + Z.max 1024 n - len b) with (Z.max 1024 n) by lia. apply Z.mod_small. lia. }
  split; [exact U|]. split; [reflexivity|]. unfold add_o. rewrite U, Z.gtb_ltb. replace (Z.max 1024 n <? Z.of_nat (length d)) with false by (symmetry; apply Z.ltb_ge; lia). cbn [obind]. destruct d as [|y d]; [cbn [length] in D; lia|]. reflexivity.
Qed.
(** zt_buf_reserve answers 0, keeps the length and has lost the contents: what zt_buf_get returns cannot be read. *)
Theorem C77_buf_reserve_refuted : forall b l n, blk b = Some l -> off b = 0 -> 0 < len b -> n > buf_unused b -> exists b', reserve_o false b n = Ok b' /\ buf_length b' = buf_length b /\ buf_get b' = UB.
Proof.
  intros b l n B O P H. unfold reserve_o. rewrite Z.gtb_ltb. replace (buf_unused b <? n) with true by (symmetry; apply Z.ltb_lt; lia). unfold expand_o, realloc. rewrite B, O. cbn [Z.eqb obind]. eexists. split; [reflexivity|]. split; [reflexivity|].
  unfold buf_get. cbn [len off blk block]. replace (len b =? 0) with false by (symmetry; apply Z.eqb_neq; lia). destruct (Z.to_nat (len b)) as [|k] eqn:E; [lia|]. reflexivity.
Qed.

(** Non-vacuity: an empty heap is in use with nothing, and histories with refusals in every place. *)
Example C77_room_ex : (blk buf_new = None \/ off buf_new = 0) /\ 0 <= len buf_new /\ 10 > buf_unused buf_new /\ len buf_new + Z.max 1024 10 < 2 ^ 64 /\ 0 < Z.of_nat (length [7]) <= Z.max 1024 10.
Proof. vm_compute. intuition congruence. Qed.
Example C77_ex : good next /\ in_use (mkmem (mkhp [] 0) 0) [] /\
  (exists a m', cut next (fun k => negb (Nat.eqb k 3)) (mkmem (mkhp [] 0) 0) [97; 46; 98; 46; 99] 46 false = Ok (a, m') /\ strings m' a = Ok [[99]]) /\
  (exists a m', tok next (fun k => negb (Nat.eqb k 3)) (mkmem (mkhp [] 0) 0) [47; 97; 47; 98; 47] 47 = Ok (a, m') /\ strings m' a = Ok [[47; 97]]) /\
  split next (fun k => negb (Nat.eqb k 1)) (mkmem (mkhp [] 0) 0) [97; 44; 98] [44] = Abort /\
  (exists p m', opt_arrays next (fun k => negb (Nat.eqb k 3)) (mkmem (mkhp [] 0) 0) 0 [[97]; [98]; [99]] = Ok (p, m') /\ terminated m' p [[97]; [99]]).
Proof.
  split; [exact next_good|]. split; [exact owns_nil|]. split; [eexists _, _; split; [vm_compute; reflexivity|vm_compute; reflexivity]|]. split; [eexists _, _; split; [vm_compute; reflexivity|vm_compute; reflexivity]|]. split; [vm_compute; reflexivity|].
  eexists _, _. split; [vm_compute; reflexivity|]. eexists [_; _], _, _. split; [vm_compute; reflexivity|]. split; [reflexivity|]. split; [repeat constructor; discriminate|vm_compute; reflexivity].
Qed.

Print Assumptions C77_split.
Print Assumptions C77_cut.
Print Assumptions C77_tok.
Print Assumptions C77_enough.
Print Assumptions C77_lost_refuted.
Print Assumptions C77_copy_refuted.
Print Assumptions C77_array.
Print Assumptions C77_string.
Print Assumptions C77_string_refuted.
Print Assumptions C77_buf_fits.
Print Assumptions C77_buf_enough.
Print Assumptions C77_buf_add_refuted.
Print Assumptions C77_buf_reserve_refuted.
Print Assumptions C77_buf_room.
