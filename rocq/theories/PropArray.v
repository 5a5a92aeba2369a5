(** C17: zt_array.c.  [elems a es]: the array holds the elements es (each a string of [asize a] bytes), in order.
    C18: zt_bstream.c.  [is_stream b s]: the stream object represents the reference byte stream s. *)
From Verif Require Import Prelude Blocks ArrayModel ArrayProofs BstreamProofs.
Open Scope Z_scope.

(** a new array has len zero elements *)
Theorem C17_new : forall len size, 0 <= len -> 0 < size -> len * size < 18446744073709551616 ->
  exists a, array_new len size = Ok a /\ elems a (repeat (repeat 0 (Z.to_nat size)) (Z.to_nat len)) /\ asize a = size.
Proof. change 18446744073709551616 with W64. exact new_ok. Qed.
Print Assumptions C17_new.
Theorem C17_length : forall a es, elems a es -> array_length a = Z.of_nat (length es).
Proof. intros a es H. apply H. Qed.
Print Assumptions C17_length.
Theorem C17_get : forall a l1 e l2, elems a (l1 ++ e :: l2) -> array_elem_copy a (Z.of_nat (length l1)) = Ok e.
Proof. exact get_ok. Qed.
Print Assumptions C17_get.
(** zt_array_get's address: the element's bytes start there *)
Theorem C17_get_address : forall a l1 e l2, elems a (l1 ++ e :: l2) ->
  exists p, array_get a (Z.of_nat (length l1)) = Ok p /\ rdn (ablock a) (Z.to_nat p) (length e) = Ok e.
Proof.
  intros a l1 e l2 H. destruct (elems_at a l1 e l2 H) as (E1 & E2 & E3). assert (G := get_ok a l1 e l2 H).
  exists (Z.of_nat (length (concat l1))). split.
  - unfold array_get. replace (Z.of_nat (length l1) <? alen a) with true by lia. cbn [guard obind]. now rewrite E1.
  - unfold array_elem_copy in G. replace (Z.of_nat (length l1) <? alen a) with true in G by lia. cbn [guard obind] in G.
    rewrite E1 in G. rewrite <- E2, !Nat2Z.id in G. rewrite Nat2Z.id. exact G.
Qed.
Print Assumptions C17_get_address.
(** put changes exactly one element; consequently the other elements and the length are unchanged *)
Theorem C17_put : forall a l1 e l2 v, elems a (l1 ++ e :: l2) -> Z.of_nat (length v) = asize a ->
  exists a', array_put a (Z.of_nat (length l1)) v = Ok a' /\ elems a' (l1 ++ v :: l2) /\ asize a' = asize a.
Proof. exact put_ok. Qed.
Print Assumptions C17_put.
(** an index at or beyond the length aborts, touching nothing *)
Theorem C17_out_of_range : forall a es i, elems a es -> Z.of_nat (length es) <= i ->
  array_elem_copy a i = Abort /\ array_get a i = Abort /\ forall e, array_put a i e = Abort.
Proof. exact get_range. Qed.
Print Assumptions C17_out_of_range.
(** resize keeps the common prefix and zero-fills *)
Theorem C17_resize : forall a es n, elems a es -> 0 < n -> n * asize a < 18446744073709551616 ->
  exists a', array_resize a n = Ok a' /\
    elems a' (firstn (Z.to_nat n) es ++ repeat (repeat 0 (Z.to_nat (asize a))) (Z.to_nat n - length es)) /\ asize a' = asize a.
Proof. change 18446744073709551616 with W64. exact resize_ok. Qed.
Print Assumptions C17_resize.
Theorem C17_resize_zero_aborts : forall a, array_resize a 0 = Abort.
Proof. exact resize_zero. Qed.
Print Assumptions C17_resize_zero_aborts.
Theorem C17_copy : forall a es n, elems a es -> 0 <= n -> n * asize a < 18446744073709551616 ->
  exists c, array_copy a n = Ok c /\
    elems c (firstn (Z.to_nat n) es ++ repeat (repeat 0 (Z.to_nat (asize a))) (Z.to_nat n - length es)) /\ asize c = asize a.
Proof. change 18446744073709551616 with W64. exact copy_ok. Qed.
Print Assumptions C17_copy.
(** zt_array_with, copying mode: the first n*size bytes of the caller's buffer *)
Theorem C17_with : forall d size, (0 < length d)%nat -> 0 < size -> forall n rest, Z.of_nat (length d) = n * size -> Z.of_nat (length d) < 18446744073709551616 ->
  exists a, array_with (Some (d ++ rest)) n size true = Ok a /\ ablock a = map Some d /\ alen a = n /\ asize a = size.
Proof. change 18446744073709551616 with W64. exact with_ok. Qed.
Print Assumptions C17_with.

(** zt_array_with_cstr: an array of the bytes of the text *)
Theorem C17_with_cstr : forall s, s <> [] -> Z.of_nat (length s) < 18446744073709551616 ->
  exists a, array_with_cstr s = Ok a /\ elems a (map (fun c => [c]) s) /\ asize a = 1.
Proof. change 18446744073709551616 with W64.
  intros s N B. destruct (with_ok s 1 ltac:(destruct s; [congruence|cbn [length]; lia]) ltac:(lia) (Z.of_nat (length s)) [] ltac:(lia) B) as (a & A1 & A2 & A3 & A4).
  rewrite app_nil_r in A1. exists a. split; [exact A1|]. split; [|exact A4]. unfold elems. rewrite map_length, concat_sing, A2, A3, A4.
  repeat split; auto; try lia.
  - apply Forall_map. apply Forall_forall. reflexivity.
  - intros D. unfold ablock in A2. rewrite D in A2. destruct s; [congruence|discriminate A2].
Qed.
Print Assumptions C17_with_cstr.

(** Violations. *)
Theorem C17_with_empty_cstr_refuted : exists s, array_with_cstr s = Abort.
Proof. exists []. reflexivity. Qed.
Print Assumptions C17_with_empty_cstr_refuted.
(** len * size wraps in size_t: the array is created although its elements do not exist *)
Theorem C17_size_wrap_refuted : exists len size a e, array_new len size = Ok a /\ array_put a 0 e = UB.
Proof. exists (2 ^ 63), 2. eexists. exists [0; 0]. split; reflexivity. Qed.
Print Assumptions C17_size_wrap_refuted.
(** zt_array_set_length does not resize: an index below the length may be outside the block *)
Theorem C17_set_length_refuted : exists a, elems a [[1]] /\ array_elem_copy (snd (array_set_length a 5)) 3 = UB.
Proof.
  exists (mkarr 1 1 (Some [Some 1])). split; [|reflexivity]. unfold elems. cbn. repeat split; try lia; auto; discriminate.
Qed.
Print Assumptions C17_set_length_refuted.

Example C17_ex : exists a a', array_new 3 2 = Ok a /\ array_put a 1 [7; 8] = Ok a' /\ array_elem_copy a' 1 = Ok [7; 8] /\
  array_elem_copy a' 0 = Ok [0; 0] /\ array_elem_copy a' 3 = Abort /\ elems a' [[0; 0]; [7; 8]; [0; 0]].
Proof.
  do 2 eexists. split; [reflexivity|]. split; [reflexivity|]. repeat split; auto; try reflexivity; try discriminate.
Qed.

(** ---- C18 ---- *)
(** Writing any sequence of values of 1, 2, 4 or 8 bytes (any widths), rewinding and reading the same widths gives the values back;
    the raw stream is the concatenation of the little-endian (flip: big-endian) representations, then zeros. *)
Theorem C18_roundtrip : forall fl l b, is_stream b (mkss [] 0 fl) -> 4 * Z.of_nat (length (layout fl l)) < 18446744073709551616 ->
  exists b1 b2 k, write_uints b l = Ok b1 /\ is_stream b1 (mkss (layout fl l ++ repeat 0 k) (length (layout fl l)) fl) /\
    read_uints (snd (bs_rewind b1)) (map fst l) = Ok (map (fun x => snd x mod 256 ^ Z.of_nat (fst x)) l, b2).
Proof. change 18446744073709551616 with W64. exact roundtrip_ok. Qed.
Print Assumptions C18_roundtrip.
Theorem C18_new : exists b, bs_new = Ok b /\ is_stream b (mkss [] 0 false) /\ bs_is_empty b = true.
Proof. destruct new_stream as (b & H & I). exists b. split; [exact H|]. split; [exact I|]. assert (bs_new = Ok (mkbs false 0 (mkarr 0 1 None))) by reflexivity. assert (b = mkbs false 0 (mkarr 0 1 None)) by congruence. subst b. reflexivity. Qed.
Print Assumptions C18_new.
(** Every history of writes, reads and rewinds behaves as on the reference stream; a read past the end aborts. *)
Theorem C18_history : forall l b s, is_stream b s -> fits s l ->
  match s_run s l with
  | Some (xs, s') => exists b', bs_run b l = Ok (xs, b') /\ is_stream b' s'
  | None => bs_run b l = Abort
  end.
Proof. exact run_ok. Qed.
Print Assumptions C18_history.
(** two views of one stream value: flipping reverses the bytes of each item only *)
Theorem C18_flip : forall n v, layout true [(n, v)] = rev (layout false [(n, v)]).
Proof. intros n v. unfold layout. cbn. now rewrite !app_nil_r. Qed.
Print Assumptions C18_flip.
Theorem C18_read_past_end_aborts : forall b s n, is_stream b s -> (length (sbytes s) < spos s + n)%nat -> bs_read b n = Abort.
Proof. exact read_past. Qed.
Print Assumptions C18_read_past_end_aborts.
(** a clone has the same bytes and position (but not the byte order, see below) *)
Theorem C18_clone_partial : forall b s, is_stream b s -> exists c, bs_clone b = Ok c /\ is_stream c (mkss (sbytes s) (spos s) false).
Proof. exact clone_ok. Qed.
Print Assumptions C18_clone_partial.

(** Giving the stream a buffer of n > 0 bytes (copied or borrowed) makes exactly those bytes its contents; the position and the byte order are kept.
    Giving it an array does the same and sets the position. *)
Theorem C18_set_data : forall b s d rest copy, is_stream b s -> (0 < length d)%nat -> (spos s <= length d)%nat -> Z.of_nat (length d) < 18446744073709551616 ->
  (copy = false -> rest = []) ->
  exists b1, bs_set_data b (Some (d ++ rest)) (Z.of_nat (length d)) copy = Ok b1 /\ is_stream b1 (mkss d (spos s) (sflip s)).
Proof. change 18446744073709551616 with W64.
  intros b s d rest copy H L P B R. unfold bs_set_data. destruct H as (_ & _ & H3 & _ & H5).
  assert (X : exists a, array_set_data (Some (d ++ rest)) (Z.of_nat (length d)) 1 copy = Ok a /\ ablock a = map Some d /\ alen a = Z.of_nat (length d) /\ asize a = 1 /\ adata a <> None).
  { destruct copy.
    - destruct (with_ok d 1 L ltac:(lia) (Z.of_nat (length d)) rest ltac:(lia) B) as (a & A1 & A2 & A3 & A4).
      exists a. split; [exact A1|]. split; [exact A2|]. split; [exact A3|]. split; [exact A4|].
      intros N. unfold ablock in A2. rewrite N in A2. destruct d; [cbn in L; lia|discriminate A2].
    - rewrite (R eq_refl), app_nil_r. unfold array_set_data, arrayrep_init. cbn [option_map].
      replace (Z.of_nat (length d) >? 0) with true by lia. cbn. eexists. split; [reflexivity|]. cbn. repeat split; discriminate. }
  destruct X as (a & A1 & A2 & A3 & A4 & A5). rewrite A1. cbn [obind]. eexists. split; [reflexivity|].
  unfold is_stream, elems. cbn [bdata offt flip sbytes spos sflip]. rewrite map_length, concat_sing, A2, A3, A4.
  repeat split; auto; try lia; try tauto. apply Forall_map. apply Forall_forall. intros x _. reflexivity.
Qed.
Print Assumptions C18_set_data.
Theorem C18_set_array : forall b s a d p, is_stream b s -> elems a (map (fun c => [c]) d) -> asize a = 1 -> (p <= length d)%nat ->
  is_stream (bs_set_array b a (Z.of_nat p)) (mkss d p (sflip s)).
Proof. intros b s a d p (_ & _ & _ & _ & H) E S P. unfold is_stream, bs_set_array. cbn. repeat split; auto; apply E. Qed.
Print Assumptions C18_set_array.
Example C18_set_data_case : exists b b1 b2, bs_new = Ok b /\ bs_set_data b (Some [4; 5; 6; 99]) 3 true = Ok b1 /\ bs_read b1 3 = Ok ([4; 5; 6], b2).
Proof. do 3 eexists. split; [reflexivity|]. split; [vm_compute; reflexivity|vm_compute; reflexivity]. Qed.

Theorem C18_clone_loses_flip_refuted : exists b c x y b1 c1, is_stream b (mkss [1; 2] 0 true) /\ bs_clone b = Ok c /\
  bs_read_uint b 2 = Ok (x, b1) /\ bs_read_uint c 2 = Ok (y, c1) /\ x <> y.
Proof.
  exists (mkbs true 0 (mkarr 2 1 (Some [Some 1; Some 2]))). do 5 eexists. split; [|split; [reflexivity|split; [reflexivity|split; [reflexivity|]]]].
  - unfold is_stream, elems. cbn. repeat split; try lia; auto; discriminate.
  - vm_compute. discriminate.
Qed.
Print Assumptions C18_clone_loses_flip_refuted.
(** truncating: the old length is returned and the stream is empty: nothing can be read (the position stays, see below) *)
Theorem C18_truncate_partial : forall b s, is_stream b s ->
  fst (bs_truncate b) = Z.of_nat (length (sbytes s)) /\ bs_is_empty (snd (bs_truncate b)) = true /\
  forall n, (0 < n)%nat -> bs_read (snd (bs_truncate b)) n = Abort.
Proof.
  intros b s (E & _ & O & _). split; [|split; [reflexivity|]].
  - destruct E as (E & _). unfold bs_truncate, array_set_length. cbn [fst]. rewrite map_length in E. exact E.
  - intros n Hn. destruct n as [|n]; [lia|]. unfold bs_truncate, array_set_length. cbn [snd].
    unfold bs_read, array_get_all. cbn [get_bytes offt bdata]. unfold array_get. cbn [alen].
    replace (offt b <? 0) with false by (symmetry; apply Z.ltb_ge; lia). reflexivity.
Qed.
Print Assumptions C18_truncate_partial.
(** zt_bstream_truncate keeps the position: the next write aborts *)
Theorem C18_truncate_then_write_refuted : exists b b1, bs_new = Ok b /\ bs_write_uint b 1 7 = Ok b1 /\ bs_write_uint (snd (bs_truncate b1)) 1 9 = Abort.
Proof. exists (mkbs false 0 (mkarr 0 1 None)), (mkbs false 1 (mkarr 2 1 (Some [Some 7; Some 0]))). split; [reflexivity|]. split; vm_compute; reflexivity. Qed.
Print Assumptions C18_truncate_then_write_refuted.

Example C18_ex : exists b, bs_new = Ok b /\ exists b1 b2, write_uints (mkbs true (offt b) (bdata b)) [(2%nat, 258); (4%nat, 7); (1%nat, 255)] = Ok b1 /\
  read_uints (snd (bs_rewind b1)) [2%nat; 4%nat; 1%nat] = Ok ([258; 7; 255], b2).
Proof.
  exists (mkbs false 0 (mkarr 0 1 None)). split; [reflexivity|]. do 2 eexists. split; [vm_compute; reflexivity|vm_compute; reflexivity].
Qed.
