(** Model of src/libzt/zt_base.c: base 64 / 32 / 16 encoding and decoding. *)
From Verif Require Export Prelude.
Open Scope Z_scope.

(** zt_base.h:13-24 struct zt_base_definition.  [with_padding] is the flag zt_base_encode_with_padding;
    the other flag (zt_base_ignore_non_encoded_data) is never read by zt_base.c. *)
Record base_def := {
  alphabet : list Z; dictionary : list Z; base : nat; igroups : nat; ogroups : nat; obits : nat;
  padc : Z; with_padding : bool }.

(** zt_base.c:4-34 *)
Definition base64_rfc : base_def := {|
  alphabet := [65; 66; 67; 68; 69; 70; 71; 72; 73; 74; 75; 76; 77; 78; 79; 80; 81; 82; 83; 84; 85; 86; 87; 88; 89; 90; 97; 98; 99; 100; 101; 102; 103; 104; 105; 106; 107; 108; 109; 110; 111; 112; 113; 114; 115; 116; 117; 118; 119; 120; 121; 122; 48; 49; 50; 51; 52; 53; 54; 55; 56; 57; 43; 47];
  dictionary := [
     (-1); (-1); (-1); (-1); (-1); (-1); (-1); (-1); (-1); (-2); (-2); (-1); (-1); (-2); (-1); (-1);
     (-1); (-1); (-1); (-1); (-1); (-1); (-1); (-1); (-1); (-1); (-1); (-1); (-1); (-1); (-1); (-1);
     (-2); (-1); (-1); (-1); (-1); (-1); (-1); (-1); (-1); (-1); (-1); 62; (-1); (-1); (-1); 63;
     52; 53; 54; 55; 56; 57; 58; 59; 60; 61; (-1); (-1); (-1); (-2); (-1); (-1);
     (-1); 0; 1; 2; 3; 4; 5; 6; 7; 8; 9; 10; 11; 12; 13; 14;
     15; 16; 17; 18; 19; 20; 21; 22; 23; 24; 25; (-1); (-1); (-1); (-1); (-1);
     (-1); 26; 27; 28; 29; 30; 31; 32; 33; 34; 35; 36; 37; 38; 39; 40;
     41; 42; 43; 44; 45; 46; 47; 48; 49; 50; 51; (-1); (-1); (-1); (-1); (-1);
     (-1); (-1); (-1); (-1); (-1); (-1); (-1); (-1); (-1); (-1); (-1); (-1); (-1); (-1); (-1); (-1);
     (-1); (-1); (-1); (-1); (-1); (-1); (-1); (-1); (-1); (-1); (-1); (-1); (-1); (-1); (-1); (-1);
     (-1); (-1); (-1); (-1); (-1); (-1); (-1); (-1); (-1); (-1); (-1); (-1); (-1); (-1); (-1); (-1);
     (-1); (-1); (-1); (-1); (-1); (-1); (-1); (-1); (-1); (-1); (-1); (-1); (-1); (-1); (-1); (-1);
     (-1); (-1); (-1); (-1); (-1); (-1); (-1); (-1); (-1); (-1); (-1); (-1); (-1); (-1); (-1); (-1);
     (-1); (-1); (-1); (-1); (-1); (-1); (-1); (-1); (-1); (-1); (-1); (-1); (-1); (-1); (-1); (-1);
     (-1); (-1); (-1); (-1); (-1); (-1); (-1); (-1); (-1); (-1); (-1); (-1); (-1); (-1); (-1); (-1);
     (-1); (-1); (-1); (-1); (-1); (-1); (-1); (-1); (-1); (-1); (-1); (-1); (-1); (-1); (-1); (-1)];
  base := 64; igroups := 3; ogroups := 4; obits := 6; padc := 61; with_padding := true
|}.

(** zt_base.c:36-66 *)
Definition base64_rfc_nopad : base_def := {|
  alphabet := [65; 66; 67; 68; 69; 70; 71; 72; 73; 74; 75; 76; 77; 78; 79; 80; 81; 82; 83; 84; 85; 86; 87; 88; 89; 90; 97; 98; 99; 100; 101; 102; 103; 104; 105; 106; 107; 108; 109; 110; 111; 112; 113; 114; 115; 116; 117; 118; 119; 120; 121; 122; 48; 49; 50; 51; 52; 53; 54; 55; 56; 57; 43; 47];
  dictionary := [
     (-1); (-1); (-1); (-1); (-1); (-1); (-1); (-1); (-1); (-2); (-2); (-1); (-1); (-2); (-1); (-1);
     (-1); (-1); (-1); (-1); (-1); (-1); (-1); (-1); (-1); (-1); (-1); (-1); (-1); (-1); (-1); (-1);
     (-2); (-1); (-1); (-1); (-1); (-1); (-1); (-1); (-1); (-1); (-1); 62; (-1); (-1); (-1); 63;
     52; 53; 54; 55; 56; 57; 58; 59; 60; 61; (-1); (-1); (-1); (-2); (-1); (-1);
     (-1); 0; 1; 2; 3; 4; 5; 6; 7; 8; 9; 10; 11; 12; 13; 14;
     15; 16; 17; 18; 19; 20; 21; 22; 23; 24; 25; (-1); (-1); (-1); (-1); (-1);
     (-1); 26; 27; 28; 29; 30; 31; 32; 33; 34; 35; 36; 37; 38; 39; 40;
     41; 42; 43; 44; 45; 46; 47; 48; 49; 50; 51; (-1); (-1); (-1); (-1); (-1);
     (-1); (-1); (-1); (-1); (-1); (-1); (-1); (-1); (-1); (-1); (-1); (-1); (-1); (-1); (-1); (-1);
     (-1); (-1); (-1); (-1); (-1); (-1); (-1); (-1); (-1); (-1); (-1); (-1); (-1); (-1); (-1); (-1);
     (-1); (-1); (-1); (-1); (-1); (-1); (-1); (-1); (-1); (-1); (-1); (-1); (-1); (-1); (-1); (-1);
     (-1); (-1); (-1); (-1); (-1); (-1); (-1); (-1); (-1); (-1); (-1); (-1); (-1); (-1); (-1); (-1);
     (-1); (-1); (-1); (-1); (-1); (-1); (-1); (-1); (-1); (-1); (-1); (-1); (-1); (-1); (-1); (-1);
     (-1); (-1); (-1); (-1); (-1); (-1); (-1); (-1); (-1); (-1); (-1); (-1); (-1); (-1); (-1); (-1);
     (-1); (-1); (-1); (-1); (-1); (-1); (-1); (-1); (-1); (-1); (-1); (-1); (-1); (-1); (-1); (-1);
     (-1); (-1); (-1); (-1); (-1); (-1); (-1); (-1); (-1); (-1); (-1); (-1); (-1); (-1); (-1); (-1)];
  base := 64; igroups := 3; ogroups := 4; obits := 6; padc := 61; with_padding := false
|}.

(** zt_base.c:68-96 *)
Definition base64_uri : base_def := {|
  alphabet := [65; 66; 67; 68; 69; 70; 71; 72; 73; 74; 75; 76; 77; 78; 79; 80; 81; 82; 83; 84; 85; 86; 87; 88; 89; 90; 97; 98; 99; 100; 101; 102; 103; 104; 105; 106; 107; 108; 109; 110; 111; 112; 113; 114; 115; 116; 117; 118; 119; 120; 121; 122; 48; 49; 50; 51; 52; 53; 54; 55; 56; 57; 45; 95];
  dictionary := [
     (-1); (-1); (-1); (-1); (-1); (-1); (-1); (-1); (-1); (-2); (-2); (-1); (-1); (-2); (-1); (-1);
     (-1); (-1); (-1); (-1); (-1); (-1); (-1); (-1); (-1); (-1); (-1); (-1); (-1); (-1); (-1); (-1);
     (-2); (-1); (-1); (-1); (-1); (-1); (-1); (-1); (-1); (-1); (-1); (-1); (-1); 62; (-1); (-1);
     52; 53; 54; 55; 56; 57; 58; 59; 60; 61; (-1); (-1); (-1); (-2); (-1); (-1);
     (-1); 0; 1; 2; 3; 4; 5; 6; 7; 8; 9; 10; 11; 12; 13; 14;
     15; 16; 17; 18; 19; 20; 21; 22; 23; 24; 25; (-1); (-1); (-1); (-1); 63;
     (-1); 26; 27; 28; 29; 30; 31; 32; 33; 34; 35; 36; 37; 38; 39; 40;
     41; 42; 43; 44; 45; 46; 47; 48; 49; 50; 51; (-1); (-1); (-1); (-1); (-1);
     (-1); (-1); (-1); (-1); (-1); (-1); (-1); (-1); (-1); (-1); (-1); (-1); (-1); (-1); (-1); (-1);
     (-1); (-1); (-1); (-1); (-1); (-1); (-1); (-1); (-1); (-1); (-1); (-1); (-1); (-1); (-1); (-1);
     (-1); (-1); (-1); (-1); (-1); (-1); (-1); (-1); (-1); (-1); (-1); (-1); (-1); (-1); (-1); (-1);
     (-1); (-1); (-1); (-1); (-1); (-1); (-1); (-1); (-1); (-1); (-1); (-1); (-1); (-1); (-1); (-1);
     (-1); (-1); (-1); (-1); (-1); (-1); (-1); (-1); (-1); (-1); (-1); (-1); (-1); (-1); (-1); (-1);
     (-1); (-1); (-1); (-1); (-1); (-1); (-1); (-1); (-1); (-1); (-1); (-1); (-1); (-1); (-1); (-1);
     (-1); (-1); (-1); (-1); (-1); (-1); (-1); (-1); (-1); (-1); (-1); (-1); (-1); (-1); (-1); (-1);
     (-1); (-1); (-1); (-1); (-1); (-1); (-1); (-1); (-1); (-1); (-1); (-1); (-1); (-1); (-1); (-1)];
  base := 64; igroups := 3; ogroups := 4; obits := 6; padc := 61; with_padding := true
|}.

(** zt_base.c:103-129 *)
Definition base32_rfc : base_def := {|
  alphabet := [65; 66; 67; 68; 69; 70; 71; 72; 73; 74; 75; 76; 77; 78; 79; 80; 81; 82; 83; 84; 85; 86; 87; 88; 89; 90; 50; 51; 52; 53; 54; 55];
  dictionary := [
     (-1); (-1); (-1); (-1); (-1); (-1); (-1); (-1); (-1); (-2); (-2); (-1); (-1); (-2); (-1); (-1);
     (-1); (-1); (-1); (-1); (-1); (-1); (-1); (-1); (-1); (-1); (-1); (-1); (-1); (-1); (-1); (-1);
     (-2); (-1); (-1); (-1); (-1); (-1); (-1); (-1); (-1); (-1); (-1); (-1); (-1); (-1); (-1); (-1);
     (-1); (-1); 26; 27; 28; 29; 30; 31; (-1); (-1); (-1); (-1); (-1); (-2); (-1); (-1);
     (-1); 0; 1; 2; 3; 4; 5; 6; 7; 8; 9; 10; 11; 12; 13; 14;
     15; 16; 17; 18; 19; 20; 21; 22; 23; 24; 25; (-1); (-1); (-1); (-1); (-1);
     (-1); (-1); (-1); (-1); (-1); (-1); (-1); (-1); (-1); (-1); (-1); (-1); (-1); (-1); (-1); (-1);
     (-1); (-1); (-1); (-1); (-1); (-1); (-1); (-1); (-1); (-1); (-1); (-1); (-1); (-1); (-1); (-1);
     (-1); (-1); (-1); (-1); (-1); (-1); (-1); (-1); (-1); (-1); (-1); (-1); (-1); (-1); (-1); (-1);
     (-1); (-1); (-1); (-1); (-1); (-1); (-1); (-1); (-1); (-1); (-1); (-1); (-1); (-1); (-1); (-1);
     (-1); (-1); (-1); (-1); (-1); (-1); (-1); (-1); (-1); (-1); (-1); (-1); (-1); (-1); (-1); (-1);
     (-1); (-1); (-1); (-1); (-1); (-1); (-1); (-1); (-1); (-1); (-1); (-1); (-1); (-1); (-1); (-1);
     (-1); (-1); (-1); (-1); (-1); (-1); (-1); (-1); (-1); (-1); (-1); (-1); (-1); (-1); (-1); (-1);
     (-1); (-1); (-1); (-1); (-1); (-1); (-1); (-1); (-1); (-1); (-1); (-1); (-1); (-1); (-1); (-1);
     (-1); (-1); (-1); (-1); (-1); (-1); (-1); (-1); (-1); (-1); (-1); (-1); (-1); (-1); (-1); (-1);
     (-1); (-1); (-1); (-1); (-1); (-1); (-1); (-1); (-1); (-1); (-1); (-1); (-1); (-1); (-1); (-1)];
  base := 32; igroups := 5; ogroups := 8; obits := 5; padc := 61; with_padding := true
|}.

(** zt_base.c:131-157 *)
Definition base32_hex : base_def := {|
  alphabet := [48; 49; 50; 51; 52; 53; 54; 55; 56; 57; 65; 66; 67; 68; 69; 70; 71; 72; 73; 74; 75; 76; 77; 78; 79; 80; 81; 82; 83; 84; 85; 86];
  dictionary := [
     (-1); (-1); (-1); (-1); (-1); (-1); (-1); (-1); (-1); (-2); (-2); (-1); (-1); (-2); (-1); (-1);
     (-1); (-1); (-1); (-1); (-1); (-1); (-1); (-1); (-1); (-1); (-1); (-1); (-1); (-1); (-1); (-1);
     (-2); (-1); (-1); (-1); (-1); (-1); (-1); (-1); (-1); (-1); (-1); (-1); (-1); (-1); (-1); (-1);
     0; 1; 2; 3; 4; 5; 6; 7; 8; 9; (-1); (-1); (-1); (-2); (-1); (-1);
     (-1); 10; 11; 12; 13; 14; 15; 16; 17; 18; 19; 20; 21; 22; 23; 24;
     25; 26; 27; 28; 29; 30; 31; (-1); (-1); (-1); (-1); (-1); (-1); (-1); (-1); (-1);
     (-1); (-1); (-1); (-1); (-1); (-1); (-1); (-1); (-1); (-1); (-1); (-1); (-1); (-1); (-1); (-1);
     (-1); (-1); (-1); (-1); (-1); (-1); (-1); (-1); (-1); (-1); (-1); (-1); (-1); (-1); (-1); (-1);
     (-1); (-1); (-1); (-1); (-1); (-1); (-1); (-1); (-1); (-1); (-1); (-1); (-1); (-1); (-1); (-1);
     (-1); (-1); (-1); (-1); (-1); (-1); (-1); (-1); (-1); (-1); (-1); (-1); (-1); (-1); (-1); (-1);
     (-1); (-1); (-1); (-1); (-1); (-1); (-1); (-1); (-1); (-1); (-1); (-1); (-1); (-1); (-1); (-1);
     (-1); (-1); (-1); (-1); (-1); (-1); (-1); (-1); (-1); (-1); (-1); (-1); (-1); (-1); (-1); (-1);
     (-1); (-1); (-1); (-1); (-1); (-1); (-1); (-1); (-1); (-1); (-1); (-1); (-1); (-1); (-1); (-1);
     (-1); (-1); (-1); (-1); (-1); (-1); (-1); (-1); (-1); (-1); (-1); (-1); (-1); (-1); (-1); (-1);
     (-1); (-1); (-1); (-1); (-1); (-1); (-1); (-1); (-1); (-1); (-1); (-1); (-1); (-1); (-1); (-1);
     (-1); (-1); (-1); (-1); (-1); (-1); (-1); (-1); (-1); (-1); (-1); (-1); (-1); (-1); (-1); (-1)];
  base := 32; igroups := 5; ogroups := 8; obits := 5; padc := 61; with_padding := true
|}.

(** zt_base.c:162-187 *)
Definition base16_rfc : base_def := {|
  alphabet := [48; 49; 50; 51; 52; 53; 54; 55; 56; 57; 65; 66; 67; 68; 69; 70];
  dictionary := [
     (-1); (-1); (-1); (-1); (-1); (-1); (-1); (-1); (-1); (-2); (-2); (-1); (-1); (-2); (-1); (-1);
     (-1); (-1); (-1); (-1); (-1); (-1); (-1); (-1); (-1); (-1); (-1); (-1); (-1); (-1); (-1); (-1);
     (-2); (-1); (-1); (-1); (-1); (-1); (-1); (-1); (-1); (-1); (-1); (-1); (-1); (-1); (-1); (-1);
     0; 1; 2; 3; 4; 5; 6; 7; 8; 9; (-1); (-1); (-1); (-2); (-1); (-1);
     (-1); 10; 11; 12; 13; 14; 15; (-1); (-1); (-1); (-1); (-1); (-1); (-1); (-1); (-1);
     (-1); (-1); (-1); (-1); (-1); (-1); (-1); (-1); (-1); (-1); (-1); (-1); (-1); (-1); (-1); (-1);
     (-1); (-1); (-1); (-1); (-1); (-1); (-1); (-1); (-1); (-1); (-1); (-1); (-1); (-1); (-1); (-1);
     (-1); (-1); (-1); (-1); (-1); (-1); (-1); (-1); (-1); (-1); (-1); (-1); (-1); (-1); (-1); (-1);
     (-1); (-1); (-1); (-1); (-1); (-1); (-1); (-1); (-1); (-1); (-1); (-1); (-1); (-1); (-1); (-1);
     (-1); (-1); (-1); (-1); (-1); (-1); (-1); (-1); (-1); (-1); (-1); (-1); (-1); (-1); (-1); (-1);
     (-1); (-1); (-1); (-1); (-1); (-1); (-1); (-1); (-1); (-1); (-1); (-1); (-1); (-1); (-1); (-1);
     (-1); (-1); (-1); (-1); (-1); (-1); (-1); (-1); (-1); (-1); (-1); (-1); (-1); (-1); (-1); (-1);
     (-1); (-1); (-1); (-1); (-1); (-1); (-1); (-1); (-1); (-1); (-1); (-1); (-1); (-1); (-1); (-1);
     (-1); (-1); (-1); (-1); (-1); (-1); (-1); (-1); (-1); (-1); (-1); (-1); (-1); (-1); (-1); (-1);
     (-1); (-1); (-1); (-1); (-1); (-1); (-1); (-1); (-1); (-1); (-1); (-1); (-1); (-1); (-1); (-1);
     (-1); (-1); (-1); (-1); (-1); (-1); (-1); (-1); (-1); (-1); (-1); (-1); (-1); (-1); (-1); (-1)];
  base := 16; igroups := 1; ogroups := 2; obits := 4; padc := 61; with_padding := false
|}.

(** alphabet[i]; the C string also has a NUL at index |alphabet|, reading past that is undefined. *)
Definition alpha (d : base_def) (i : Z) : outcome Z :=
  if (0 <=? i) then match nth_error (alphabet d ++ [0]) (Z.to_nat i) with Some c => Ok c | None => UB end else UB.
(** dictionary[c] *)
Definition dict (d : base_def) (c : Z) : outcome Z :=
  if (0 <=? c) then match nth_error (dictionary d) (Z.to_nat c) with Some v => Ok v | None => UB end else UB.

(** Reading n bytes with *in++ ; past the end of the input is undefined. *)
Definition take_in (n : nat) (inp : list Z) : outcome (list Z * list Z) :=
  if (n <=? length inp)%nat then Ok (firstn n inp, skipn n inp) else UB.

(** Look up several symbols in turn: *out++ = alphabet[...]; ... *)
Fixpoint alphas (d : base_def) (is : list Z) : outcome (list Z) :=
  match is with
  | [] => Ok []
  | i :: r => c <- alpha d i ;; cs <- alphas d r ;; Ok (c :: cs)
  end.

Notation "a .<< n" := (Z.shiftl a n) (at level 35).
Notation "a .>> n" := (Z.shiftr a n) (at level 35).
Notation "a .& b" := (Z.land a b) (at level 36, left associativity).
Notation "a .| b" := (Z.lor a b) (at level 37, left associativity).

(** zt_base.c:225-228 : the four alphabet indices of one full 3-byte group *)
Definition idx64 (b0 b1 b2 : Z) : list Z :=
  [ b0 .>> 2;
    ((b0 .& 0x03) .<< 4) .| ((b1 .& 0xF0) .>> 4);
    ((b1 .& 0x0F) .<< 2) .| ((b2 .& 0xC0) .>> 6);
    b2 .& 0x3F ].

(** zt_base.c:215-229 : for (i=0; i < lcnt; i++) *)
Fixpoint enc64_loop (d : base_def) (lcnt : nat) (inp : list Z) : outcome (list Z * list Z) :=
  match lcnt with
  | O => Ok ([], inp)
  | S k =>
      '(g, inp1) <- take_in 3 inp ;;
      o <- alphas d (idx64 (nth 0 g 0) (nth 1 g 0) (nth 2 g 0)) ;;
      '(os, inp2) <- enc64_loop d k inp1 ;;
      Ok (o ++ os, inp2)
  end.

(** zt_base.c:231-248 : the tail; [mod_] = in_bytes % 3 *)
Definition enc64_tail (d : base_def) (mod_ : nat) (inp : list Z) : outcome (list Z) :=
  if (0 <? mod_)%nat then
    '(g0, inp1) <- take_in 1 inp ;;
    let b0 := nth 0 g0 0 in
    '(g1, _) <- (if (1 <? mod_)%nat then take_in 1 inp1 else Ok ([0], inp1)) ;;
    let b1 := nth 0 g1 0 in
    let b2 := 0 in
    o1 <- alphas d [ b0 .>> 2; ((b0 .& 0x03) .<< 4) .| ((b1 .& 0xF0) .>> 4) ] ;;
    o2 <- (if (1 <? mod_)%nat then alphas d [ ((b1 .& 0x0F) .<< 2) .| ((b2 .& 0xC0) .>> 6) ] else Ok []) ;;
    Ok (o1 ++ o2 ++ (if with_padding d then repeat (padc d) (3 - mod_) else []))
  else Ok [].

(** zt_base.c:209-251 _encode64: the characters written to [out], in order *)
Definition encode64 (d : base_def) (inp : list Z) (lcnt mod_ : nat) : outcome (list Z) :=
  '(os, inp1) <- enc64_loop d lcnt inp ;;
  t <- enc64_tail d mod_ inp1 ;;
  Ok (os ++ t).

(** zt_base.c:331-338 *)
Definition idx32 (b0 b1 b2 b3 b4 : Z) : list Z :=
  [ b0 .>> 3;
    ((b0 .& 0x07) .<< 2) .| ((b1 .& 0xC0) .>> 6);
    ((b1 .& 0x3F) .>> 1);
    ((b1 .& 0x01) .<< 4) .| ((b2 .& 0xF0) .>> 4);
    ((b2 .& 0x0F) .<< 1) .| ((b3 .& 0x80) .>> 7);
    ((b3 .& 0x7C) .>> 2);
    ((b3 .& 0x03) .<< 3) .| ((b4 .& 0xE0) .>> 5);
    b4 .& 0x1F ].

(** zt_base.c:319-339 *)
Fixpoint enc32_loop (d : base_def) (lcnt : nat) (inp : list Z) : outcome (list Z * list Z) :=
  match lcnt with
  | O => Ok ([], inp)
  | S k =>
      '(g, inp1) <- take_in 5 inp ;;
      o <- alphas d (idx32 (nth 0 g 0) (nth 1 g 0) (nth 2 g 0) (nth 3 g 0) (nth 4 g 0)) ;;
      '(os, inp2) <- enc32_loop d k inp1 ;;
      Ok (o ++ os, inp2)
  end.

(** zt_base.c:343-345 : (mod > k) ? *in++ : 0 *)
Definition cond_in (b : bool) (inp : list Z) : outcome (Z * list Z) :=
  if b then '(g, r) <- take_in 1 inp ;; Ok (nth 0 g 0, r) else Ok (0, inp).

(** zt_base.c:341-376 *)
Definition enc32_tail (d : base_def) (mod_ : nat) (inp : list Z) : outcome (list Z) :=
  if (0 <? mod_)%nat then
    '(b0, inp1) <- cond_in true inp ;;
    '(b1, inp2) <- cond_in (1 <? mod_)%nat inp1 ;;
    '(b2, inp3) <- cond_in (2 <? mod_)%nat inp2 ;;
    '(b3, _) <- cond_in (3 <? mod_)%nat inp3 ;;
    let b4 := 0 in
    o1 <- alphas d [ b0 .>> 3; ((b0 .& 0x07) .<< 2) .| ((b1 .& 0xC0) .>> 6) ] ;;
    let pad1 := 6%nat in
    o2 <- (if (1 <? mod_)%nat
           then alphas d [ ((b1 .& 0x3F) .>> 1); ((b1 .& 0x01) .<< 4) .| ((b2 .& 0xF0) .>> 4) ]
           else Ok []) ;;
    let pad2 := if (1 <? mod_)%nat then 4%nat else pad1 in
    o3 <- (if (2 <? mod_)%nat then alphas d [ ((b2 .& 0x0F) .<< 1) .| ((b3 .& 0x80) .>> 7) ] else Ok []) ;;
    let pad3 := if (2 <? mod_)%nat then 3%nat else pad2 in
    o4 <- (if (3 <? mod_)%nat
           then alphas d [ ((b3 .& 0x7C) .>> 2); ((b3 .& 0x03) .<< 3) .| ((b4 .& 0xE0) .>> 5) ]
           else Ok []) ;;
    let pad4 := if (3 <? mod_)%nat then 1%nat else pad3 in
    Ok (o1 ++ o2 ++ o3 ++ o4 ++ (if with_padding d then repeat (padc d) pad4 else []))
  else Ok [].

(** zt_base.c:314-379 _encode32 *)
Definition encode32 (d : base_def) (inp : list Z) (lcnt mod_ : nat) : outcome (list Z) :=
  '(os, inp1) <- enc32_loop d lcnt inp ;;
  t <- enc32_tail d mod_ inp1 ;;
  Ok (os ++ t).

(** zt_base.c:471-493 _encode16 *)
Fixpoint encode16 (d : base_def) (inp : list Z) (lcnt : nat) : outcome (list Z) :=
  match lcnt with
  | O => Ok []
  | S k =>
      '(g, inp1) <- take_in 1 inp ;;
      let b0 := nth 0 g 0 in
      o <- alphas d [ b0 .>> 4; b0 .& 0x0F ] ;;
      os <- encode16 d inp1 k ;;
      Ok (o ++ os)
  end.

(** Conversion of an unsigned int to unsigned char on assignment. *)
Definition uchar (v : Z) : Z := v mod 256.
(** unsigned int arithmetic *)
Definition u32 (v : Z) : Z := v mod 2 ^ 32.

(** zt_base.c:281-283 *)
Definition out64 (b0 b1 b2 b3 : Z) : list Z :=
  [ uchar (u32 (b0 .<< 2) .| (b1 .>> 4));
    uchar (u32 ((b1 .& 0x0F) .<< 4) .| (b2 .>> 2));
    uchar (u32 ((b2 .& 0x03) .<< 6) .| b3) ].
(** zt_base.c:414-418 *)
Definition out32 (b0 b1 b2 b3 b4 b5 b6 b7 : Z) : list Z :=
  [ uchar (u32 (b0 .<< 3) .| (b1 .>> 2));
    uchar (u32 (b1 .<< 6) .| u32 (b2 .<< 1) .| (b3 .>> 4));
    uchar (u32 (b3 .<< 4) .| (b4 .>> 1));
    uchar (u32 (b4 .<< 7) .| u32 (b5 .<< 2) .| (b6 .>> 3));
    uchar (u32 (b6 .<< 5) .| b7) ].
(** zt_base.c:521 *)
Definition out16 (b0 b1 : Z) : list Z := [ uchar (u32 (b0 .<< 4) .| b1) ].

(** buf[i] read when i < cnt (the buffer entries below cnt are initialised). *)
Definition bget (buf : list Z) (i : nat) : Z := nth i buf 0.

(** Bytes emitted for a full buffer, per base (zt_base.c:269-286, 397-421, 511-524). *)
Definition full_out (d : base_def) (buf : list Z) : list Z :=
  let b := bget buf in
  match base d with
  | 64%nat => out64 (b 0%nat) (b 1%nat) (b 2%nat) (b 3%nat)
  | 32%nat => out32 (b 0%nat) (b 1%nat) (b 2%nat) (b 3%nat) (b 4%nat) (b 5%nat) (b 6%nat) (b 7%nat)
  | _ => out16 (b 0%nat) (b 1%nat)
  end.
(** BUFSIZE_64, BUFSIZE_32, BUFSIZE_16 (zt_base.c:253, 381, 495) *)
Definition bufsize (d : base_def) : nat :=
  match base d with 64%nat => 4%nat | 32%nat => 8%nat | _ => 2%nat end.

(** zt_base.c:263-291, 391-426, 505-529 : the decoding loop.  State: buf (of length cnt), bytes written so far.
    [inl] : an invalid character was met (return -1 at once, *out_bytes untouched);
    [inr] : loop completed. *)
Fixpoint dec_loop (d : base_def) (inp : list Z) (buf out : list Z) : outcome (list Z + (list Z * list Z)) :=
  match inp with
  | [] => Ok (inr (buf, out))
  | c :: r =>
      v <- dict d c ;;
      if 0 <=? v then
        let buf1 := buf ++ [v] in
        if (length buf1 =? bufsize d)%nat then dec_loop d r [] (out ++ full_out d buf1)
        else dec_loop d r buf1 out
      else if v =? -1 then Ok (inl out)
      else dec_loop d r buf out
  end.

(** Result of a decoder: return code, bytes written (in order), new *out_bytes (None: left untouched). *)
Definition dres := (Z * list Z * option nat)%type.

(** zt_base.c:293-311 end of _decode64 *)
Definition dec64_end (buf out : list Z) : dres :=
  let b := bget buf in
  let obytes := length out in
  match length buf with
  | 0%nat => (0, out, Some obytes)
  | 1%nat => (-1, out, Some (obytes + 0)%nat)
  | 2%nat => (0, out ++ [uchar (u32 (b 0%nat .<< 2) .| (b 1%nat .>> 4))], Some (obytes + 1)%nat)
  | 3%nat => (0, out ++ [uchar (u32 (b 0%nat .<< 2) .| (b 1%nat .>> 4));
                         uchar (u32 ((b 1%nat .& 0x0F) .<< 4) .| (b 2%nat .>> 2))], Some (obytes + 2)%nat)
  | n => (0, out, Some (obytes + (n - 1))%nat)
  end.

(** zt_base.c:428-468 end of _decode32.  Note "case 6: return -1" does not store *out_bytes. *)
Definition dec32_end (buf out : list Z) : dres :=
  let b := bget buf in
  let obytes := length out in
  let o0 := uchar (u32 (b 0%nat .<< 3) .| (b 1%nat .>> 2)) in
  let o1 := uchar (u32 (b 1%nat .<< 6) .| u32 (b 2%nat .<< 1) .| (b 3%nat .>> 4)) in
  let o2 := uchar (u32 (b 3%nat .<< 4) .| (b 4%nat .>> 1)) in
  let o3 := uchar (u32 (b 4%nat .<< 7) .| u32 (b 5%nat .<< 2) .| (b 6%nat .>> 3)) in
  match length buf with
  | 0%nat => (0, out, Some obytes)
  | 1%nat => (-1, out, Some obytes)
  | 2%nat => (0, out ++ [o0], Some (obytes + 1)%nat)
  | 3%nat => (-1, out, Some obytes)
  | 4%nat => (0, out ++ [o0; o1], Some (obytes + 2)%nat)
  | 5%nat => (0, out ++ [o0; o1; o2], Some (obytes + 3)%nat)
  | 6%nat => (-1, out, None)
  | 7%nat => (0, out ++ [o0; o1; o2; o3], Some (obytes + 4)%nat)
  | _ => (-1, out, Some obytes)
  end.

(** zt_base.c:531-532 end of _decode16: a left-over digit is dropped *)
Definition dec16_end (buf out : list Z) : dres := (0, out, Some (length out)).

Definition dec_end (d : base_def) (buf out : list Z) : dres :=
  match base d with 64%nat => dec64_end buf out | 32%nat => dec32_end buf out | _ => dec16_end buf out end.

(** zt_base.c:254-312, 382-469, 496-533 *)
Definition decode_core (d : base_def) (inp : list Z) : outcome dres :=
  r <- dec_loop d inp [] [] ;;
  match r with
  | inl out => Ok (-1, out, None)
  | inr (buf, out) => Ok (dec_end d buf out)
  end.

(** zt_base.c:191-207 _valid_dictionary_p (def != NULL) *)
Definition valid_dictionary (d : base_def) : bool :=
  (8 * igroups d =? ogroups d * obits d)%nat && (igroups d <=? 8)%nat.

(** The [out] argument: NULL; pointer to a NULL pointer; pointer to a buffer with given contents. *)
Inductive outarg := OutNull | OutPtrNull | OutBuf (mem : list Z).
(** Result of the public functions: return code, *out_bytes afterwards, *out afterwards
    ([None] = *out unchanged and nothing written, [Some mem] = buffer contents). *)
Definition pres := (Z * nat * option (list Z))%type.

(** Store the written bytes at the beginning of a buffer; overrun is undefined. *)
Definition store (mem w : list Z) : outcome (list Z) :=
  if (length w <=? length mem)%nat then Ok (w ++ skipn (length w) mem) else UB.

(** zt_base.c:560-571 size computation *)
Definition enc_size (d : base_def) (n : nat) : nat :=
  let lcount := (n / igroups d)%nat in
  let m := ((8 * (n mod igroups d)) / obits d)%nat in
  (lcount * ogroups d + (if (0 <? m)%nat then (if with_padding d then ogroups d else m + 1) else 0))%nat.

(** zt_base.c:592-607 the dispatch on def->base *)
Definition encode_core (d : base_def) (inp : list Z) : option (outcome (list Z)) :=
  let lcount := (length inp / igroups d)%nat in
  let rem := (length inp mod igroups d)%nat in
  match base d with
  | 64%nat => Some (encode64 d inp lcount rem)
  | 32%nat => Some (encode32 d inp lcount rem)
  | 16%nat => Some (encode16 d inp lcount)
  | _ => None
  end.

(** zt_base.c:536-608 zt_base_encode, with in != NULL, out_bytes != NULL, [inp] the in_bytes bytes at in. *)
Definition zt_base_encode (d : base_def) (inp : list Z) (out : outarg) (out_bytes : nat) : outcome pres :=
  if negb (valid_dictionary d) then Ok (-1, out_bytes, None)
  else if (length inp =? 0)%nat then Ok (0, 0%nat, None)
  else
    let ocount := enc_size d (length inp) in
    (* :573-577 *)
    let '(outp, olen) :=
      match out with
      | OutNull => (None, out_bytes)
      | OutPtrNull => if (out_bytes =? 0)%nat then (Some (repeat 0 ocount), ocount) else (None, out_bytes)
      | OutBuf m => (Some m, out_bytes)
      end in
    let allocated := match out with OutPtrNull => outp | _ => None end in
    if (olen <? ocount)%nat then Ok (-2, ocount, allocated)
    else match outp with
         | None => Ok (0, ocount, None)
         | Some mem =>
             match encode_core d inp with
             | None => Ok (-1, ocount, allocated)
             | Some e => w <- e ;; mem' <- store mem w ;; Ok (0, ocount, Some mem')
             end
         end.

(** zt_base.c:640-645 : strip trailing pad characters; the value of i after the loop.
    The loop runs i = in_bytes-1 down to 1; [fuel] counts i. *)
Fixpoint strip_loop (d : base_def) (inp : list Z) (i : nat) : nat :=
  match i with
  | O => O
  | S i' => if negb (nth i inp 0 =? padc d) then (length inp - 1 - i)%nat else strip_loop d inp i'
  end.

(** zt_base.c:639-649 *)
Definition dec_size (d : base_def) (inp : list Z) : nat :=
  let i := strip_loop d inp (length inp - 1) in
  let m := (length inp - i)%nat in
  (m / ogroups d * igroups d + m mod ogroups d)%nat.

(** zt_base.c:615-688 zt_base_decode, with in != NULL, out_bytes != NULL. *)
Definition zt_base_decode (d : base_def) (inp : list Z) (out : outarg) (out_bytes : nat) : outcome pres :=
  if negb (valid_dictionary d) then Ok (-1, out_bytes, None)
  else if (length inp =? 0)%nat then Ok (0, 0%nat, None)
  else
    let ocount := dec_size d inp in
    match out with
    | OutNull => Ok (0, ocount, None)
    | _ =>
      let too_small := match out with OutBuf _ => (out_bytes <? ocount)%nat | _ => false end in
      if too_small then Ok (-2, ocount, None)
      else
        (* :661-671 *)
        let '(outp, ob) :=
          match out with
          | OutBuf m => (m, out_bytes)
          | _ => if (out_bytes =? 0)%nat then (repeat 0 (ocount + 1), ocount)
                 else ([], out_bytes)    (* outp stays NULL: any write through it is undefined *)
          end in
        if (base d =? 64)%nat || (base d =? 32)%nat || (base d =? 16)%nat then
          '(rc, w, ob') <- decode_core d inp ;;
          mem' <- store outp w ;;
          Ok (rc, match ob' with Some n => n | None => ob end, Some mem')
        else Ok (-1, ob, Some outp)
    end.
