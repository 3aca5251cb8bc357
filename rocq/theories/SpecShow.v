(** SpecShow: when a decoded picture is to be shown (C104) - by the number of frames shown since the last group of
    pictures header, independently of the model's functions. *)
From Verif Require Import Base VidModel SpecVid SpecRules.

(** What a decoder does: decode a picture, show a frame *)
Inductive event : Type := Pic (sh : shot) | Show (f : image).
Definition pics (es : list event) : list shot := flat_map (fun e => match e with Pic sh => [sh] | Show _ => [] end) es.
Definition shows (es : list event) : list image := flat_map (fun e => match e with Pic _ => [] | Show f => [f] end) es.

(** The temporal_reference whose turn it is: the number of frames shown since the last group header (with 32 bits) *)
Definition turn (es : list event) : Z :=
  fold_left (fun n e => match e with Pic sh => if s_group sh then 0 else n | Show _ => (n + 1) mod 2 ^ 32 end) es 0.
(** The pictures decoded since then *)
Definition this_group (shs : list shot) : list shot := fold_left (fun l sh => if s_group sh then [sh] else l ++ [sh]) shs [].
(** I and P pictures are kept, the last two of them. *)
Definition is_reference (sh : shot) : bool := (s_type sh =? 1) || (s_type sh =? 2).
Definition last_two {A} (l : list A) : list A := skipn (length l - 2) l.
Definition kept (shs : list shot) : list shot := last_two (filter is_reference (this_group shs)).
(** The frame of a picture is due when it is its turn and the picture has just been decoded, or is kept. *)
Definition due (es : list event) (f : image) : Prop :=
  exists sh, s_frame sh = f /\ p_tr (s_hdr sh) = turn es /\ ((exists es', es = es' ++ [Pic sh]) \/ In sh (kept (pics es))).
(** A frame is shown when it is due, and a picture decoded only when none is. *)
Definition timely (es : list event) : Prop :=
  forall a e b, es = a ++ e :: b -> match e with Show f => due a f | Pic _ => forall f, ~ due a f end.
