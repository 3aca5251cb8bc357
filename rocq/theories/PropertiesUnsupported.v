(** PropertiesUnsupported: C109 - every extension that the decoder does not support makes Next panic. *)
From Coq Require Import Lia.
From Verif Require Import Base BitReader VidModel SpecVid SpecNext SpecPicture SpecPanic PropertiesPes SpecUnsupported MbModel PropertiesVidHeaders SliceProofs NextProofs PropertiesNext ExampleStream UnsupportedProofs.

(** From the beginning of a stream; [k] zero bytes may come first *)
Theorem C109_first : forall k rd d, meets_unsupported false d ->
  exists s, next (new_vidseq, setb rd (bb (repeat 0 k) ++ d)) = (Panic, s).
Proof. intros k rd d M. apply next_panics_fwd; auto. intro H. now destruct H. Qed.

(** After coded groups of pictures, all of which are shown *)
Theorem C109_later : forall k g gs rd d, sequence_of picture_coded (g :: gs) -> meets_unsupported true d ->
  exists imgs s s', nexts (length (shown (g :: gs))) (new_vidseq, setb rd (bb (repeat 0 k) ++ flat_map enc_group (g :: gs) ++ d)) = (Ok imgs, s) /\
    Forall2 looks imgs (shown (g :: gs)) /\ next s = (Panic, s').
Proof. intros k g gs rd d V M. apply unsupported_after; [now apply coded_valid | exact M]. Qed.

(** A sequence scalable extension after user data; a picture spatial scalable extension after a quant matrix extension and
    user data, in a group without sequence headers *)
Definition un_scalable : list bool := code extension_code ++ enc 4 5 ++ enc 12 0.
Definition un_spatial : list bool := code extension_code ++ enc 4 9 ++ enc 4 0 ++ code 1.
Definition un_quant : xitem := XQuant (mkSquant (Some std_intra_matrix) None None None) 1.
Definition un_head : spicture_head := mkPictureHead (mkSpic 0 1 65535 (false, 7) (false, 7) []) 0 xs_pce 2 [un_quant; XUser [9; 9]].
Example C109_hyp : meets_unsupported false (enc_start xs_start ++ un_scalable) /\ sequence_of picture_coded xs_groups /\
  meets_unsupported true (opt enc_start None ++ opt enc_group_head (Some (mkGroupHead (xs_gop true) 1 [XUser [7]])) ++ enc_picture_head un_head ++ un_spatial).
Proof.
  pose proof C73_hyp as C. assert (W : wf_start xs_start) by (destruct C as (W & _); pose proof (Forall_inv W) as (W0 & _); exact W0).
  assert (Wg : wf_gop (xs_gop true)) by (destruct C as (G & _); pose proof (Forall_inv G) as (_ & W0 & _); exact W0).
  split; [|split; [exact C|] ].
  - apply after_sequence_headers; [exact W| |reflexivity]. exists 5, (enc 12 0). split; [reflexivity|]. split; [reflexivity|]. rewrite enc_length. lia.
  - apply after_picture_headers; [discriminate|exact I| | | |reflexivity].
    + split; [exact Wg|]. split; [now repeat constructor|]. apply Forall_cons; [|apply Forall_nil]. split; [byte_list | no_prefix_tac].
    + split; [repeat split; cbn; try lia; apply Forall_nil|]. split; [repeat split; cbn; lia|]. split; [now repeat constructor|].
      apply Forall_cons; [|apply Forall_cons; [split; [byte_list | no_prefix_tac] | apply Forall_nil] ].
      split; [split; [reflexivity | unfold std_intra_matrix; byte_list] | repeat split].
    + exists 9, (enc 4 0 ++ code 1). split; [reflexivity|]. cbn [In]. auto.
Qed.
