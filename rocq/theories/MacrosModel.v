(** Model of src/libzt/zt_macros.h value macros (arguments without side effects). *)
From Verif Require Export Prelude.
Open Scope Z_scope.

(** zt_macros.h:24 *)
Definition m_abs (a : Z) : Z := if a <? 0 then - a else a.
(** zt_macros.h:31 CLAMP *)
Definition m_clamp (x low high : Z) : Z := if high <? x then high else if x <? low then low else x.
(** zt_macros.h:38 CEILING *)
Definition m_ceiling (x c : Z) : Z := if c <? x then c else x.
(** zt_macros.h:45 FLOOR *)
Definition m_floor (x f : Z) : Z := if x <? f then f else x.
(** zt_macros.h:52 MAX *)
Definition m_max (a b : Z) : Z := if b <? a then a else b.
(** zt_macros.h:59 MIN *)
Definition m_min (a b : Z) : Z := if a <? b then a else b.
(** zt_macros.h:155-156 ZT_BIT_SET : target |= bit *)
Definition bit_set (t b : Z) : Z := Z.lor t b.
(** zt_macros.h:162-163 ZT_BIT_UNSET : target &= ~bit *)
Definition bit_unset (t b : Z) : Z := Z.land t (Z.lnot b).
(** zt_macros.h:169-170 ZT_BIT_ISSET *)
Definition bit_isset (t b : Z) : bool := negb (Z.land t b =? 0).
(** zt_macros.h:176-177 ZT_BIT_ISUNSET *)
Definition bit_isunset (t b : Z) : bool := negb (bit_isset t b).
