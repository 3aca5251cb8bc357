(** SpecUnsupported: coded streams that go on with an extension the decoder does not support - a description of the stream
    alone. *)
From Verif Require Import Base SpecVid SpecNext SpecPanic.

(** A group of pictures header, with the user data after it *)
Record sgroup_head : Type := mkGroupHead { gh_hdr : sgop; gh_k : nat; gh_items : list xitem }.
Definition enc_group_head (g : sgroup_head) : list bool := stuffed (enc_gop (gh_hdr g)) (gh_k g) ++ enc_xitems (gh_items g).
Definition wf_group_head (g : sgroup_head) : Prop := wf_gop (gh_hdr g) /\ Forall (allowed 1) (gh_items g) /\ Forall wf_xitem (gh_items g).

(** The headers of a picture, with the extensions and user data after them *)
Record spicture_head : Type := mkPictureHead { pd_hdr : spic; pd_k1 : nat; pd_pce : spce; pd_k2 : nat; pd_items : list xitem }.
Definition enc_picture_head (p : spicture_head) : list bool :=
  stuffed (enc_pic (pd_hdr p)) (pd_k1 p) ++ stuffed (enc_pce (pd_pce p)) (pd_k2 p) ++ enc_xitems (pd_items p).
Definition wf_picture_head (p : spicture_head) : Prop :=
  wf_pic (pd_hdr p) /\ wf_pce (pd_pce p) /\ Forall (allowed 2) (pd_items p) /\ Forall wf_xitem (pd_items p).

Definition opt {A} (enc : A -> list bool) (o : option A) : list bool := match o with Some a => enc a | None => [] end.
Definition opt_wf {A} (wf : A -> Prop) (o : option A) : Prop := match o with Some a => wf a | None => True end.

(** [meets_unsupported started d]: [d] goes on, after sequence headers, or after perhaps sequence headers, perhaps a group of
    pictures header, and picture headers, with an unsupported extension; what comes after it does not matter.  If the sequence
    has not started, there are sequence headers. *)
Inductive meets_unsupported (started : bool) : list bool -> Prop :=
| after_sequence_headers : forall s d, wf_start s -> unsupported false d -> (length d mod 8 = 0)%nat ->
    meets_unsupported started (enc_start s ++ d)
| after_picture_headers : forall os og p d, (started = false -> os <> None) ->
    opt_wf wf_start os -> opt_wf wf_group_head og -> wf_picture_head p -> unsupported true d -> (length d mod 8 = 0)%nat ->
    meets_unsupported started (opt enc_start os ++ opt enc_group_head og ++ enc_picture_head p ++ d).
