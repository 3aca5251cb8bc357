(** SpecEnd: the streams on which the decoder does not come to an end. *)
From Verif Require Import Base SpecVid.

(** Somewhere in the bits [l] there is a group of pictures header (start code, 27 bits, then bits up to
    alignment and zero bytes), any number of user data, and then an extension start code. *)
Definition extension_after_group (l : list bool) : Prop :=
  exists a g al k us t, length g = 27%nat /\ (length al < 8)%nat /\ Forall bytes us /\ Forall no_prefix us /\
    l = a ++ code 184 ++ g ++ al ++ bb (repeat 0 k) ++ concat (map enc_user us) ++ code extension_code ++ t.
