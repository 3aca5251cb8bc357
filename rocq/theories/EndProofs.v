(** EndProofs: Next ends on every finite stream, unless extension data follows a group of pictures header. *)
From Verif Require Import Base BitReader Exec Local TsRobust Mono PesModel PesLocal Huffman VlcTables BlockModel VlcProofs BlockProofs PropertiesBlock
  VidModel SpecVid VidProofs VidStream VidExt VidLocal MbModel SpecEnd.

(** * What is left is a suffix of what was there *)
Definition suf {S A} (rd : S -> reader) (m : M S A) : Prop := forall s x s', rlater (rd s) = [] -> m s = (x, s') ->
  rlater (rd s') = [] /\ exists a, rbits (rd s) = a ++ rbits (rd s').
Notation sufr m := (suf (fun r : reader => r) m).
Notation sufs m := (suf snd m).

Lemma suf_ret : forall S A rd (a : A), suf (S := S) rd (ret a).
Proof. intros S A rd a s x s' Hr H. inversion H; subst. split; auto. now exists []. Qed.
Lemma suf_fail : forall S A rd e, suf (S := S) (A := A) rd (fail e).
Proof. intros S A rd a s x s' Hr H. inversion H; subst. split; auto. now exists []. Qed.
Lemma suf_panic : forall S A rd, suf (S := S) (A := A) rd panic.
Proof. intros S A rd s x s' Hr H. inversion H; subst. split; auto. now exists []. Qed.
Lemma suf_nofuel : forall S A rd, suf (S := S) (A := A) rd nofuel.
Proof. intros S A rd s x s' Hr H. inversion H; subst. split; auto. now exists []. Qed.
Lemma suf_bind : forall S A B rd (m : M S A) (k : A -> M S B), suf rd m -> (forall a, suf rd (k a)) -> suf rd (bind m k).
Proof.
  intros S A B rd m k Hm Hk s x s' Hr H. unfold bind in H. destruct (m s) as [ [a|e| |] s1] eqn:E.
  - destruct (Hm _ _ _ Hr E) as (A1 & l1 & A2). destruct (Hk a _ _ _ A1 H) as (B1 & l2 & B2).
    split; auto. exists (l1 ++ l2). now rewrite A2, B2, app_assoc.
  - inversion H; subst. eapply Hm; eauto.
  - inversion H; subst. eapply Hm; eauto.
  - inversion H; subst. eapply Hm; eauto.
Qed.
Lemma suf_if : forall S A rd (c : bool) (a b : M S A), suf rd a -> suf rd b -> suf rd (if c then a else b).
Proof. intros S A rd [] a b Ha Hb; auto. Qed.
Lemma suf_ignore : forall S A rd (d : A) (m : M S A), suf rd m -> suf rd (ignore_err d m).
Proof.
  intros S A rd d m Hm r x r' Hr H. unfold ignore_err in H. destruct (m r) as [ [a|e| |] r1] eqn:E; inversion H; subst; eapply Hm; eauto.
Qed.
Lemma suf_short : forall A n, sufr (@short A n).
Proof.
  intros A n r x r' Hr H. unfold short in H. destruct (rbits r) eqn:E; inversion H; subst.
  - destruct (advance_mono r Hr) as (? & ? & Z). split; auto. exists []. unfold left in Z. destruct (rbits (advance r)); [reflexivity | discriminate].
  - split; auto. now exists [].
Qed.
Lemma suf_read_n : forall n, sufr (read_n n).
Proof.
  intros n r x r' Hr H. unfold read_n in H. destruct (Nat.leb n (length (rbits r))).
  - inversion H; subst. split; auto. exists (firstn n (rbits r)). cbn [setb rbits]. now rewrite firstn_skipn.
  - eapply suf_short; eauto.
Qed.
Lemma suf_peek_n : forall n, sufr (peek_n n).
Proof.
  intros n r x r' Hr H. unfold peek_n in H. destruct (Nat.leb n (length (rbits r))).
  - inversion H; subst. split; auto. now exists [].
  - eapply suf_short; eauto.
Qed.
Lemma suf_read1 : sufr read1.
Proof. unfold read1. apply suf_bind; [apply suf_read_n | intro; apply suf_ret]. Qed.
Lemma suf_peek1 : sufr peek1.
Proof. unfold peek1. apply suf_bind; [apply suf_peek_n | intro; apply suf_ret]. Qed.
Lemma suf_skip_n : forall n, sufr (skip_n n).
Proof. intro. unfold skip_n. apply suf_bind; [apply suf_read_n | intro; apply suf_ret]. Qed.
Lemma suf_onr : forall T A (m : M reader A), sufr m -> sufs (onr (T := T) m).
Proof. intros T A m H [t r] x s' Hr E. unfold onr in E. cbn [fst snd] in *. destruct (m r) as [o r1] eqn:Em. inversion E; subst. cbn [snd]. exact (H _ _ _ Hr Em). Qed.
Lemma suf_upd : forall T (f : T -> T), sufs (upd (R := reader) f).
Proof. intros T f [t r] x s' Hr E. inversion E; subst. split; auto. now exists []. Qed.
Lemma suf_own : forall T, sufs (own (T := T) (R := reader)).
Proof. intros T [t r] x s' Hr E. inversion E; subst. split; auto. now exists []. Qed.
Lemma suf_deref : forall S A rd (o : option A), suf (S := S) rd (deref o).
Proof. intros. destruct o; [apply suf_ret | apply suf_panic]. Qed.
Lemma suf_when : forall S rd c (m : M S unit), suf rd m -> suf rd (when c m).
Proof. intros. unfold when. apply suf_if; auto. apply suf_ret. Qed.
Lemma suf_fuel : forall A (f : nat -> M reader A), (forall n, sufr (f n)) -> sufr (fun r => f (S (length (rbits r))) r).
Proof. intros A f H r x r' Hr E. eapply H; eauto. Qed.
Lemma suf_fuels : forall T A (f : nat -> M (T * reader) A), (forall n, sufs (f n)) -> sufs (fun s => f (S (length (rbits (snd s)))) s).
Proof. intros T A f H r x r' Hr E. eapply H; eauto. Qed.
Create HintDb suf.
Ltac suf_tac :=
  repeat first
    [ apply suf_ret | apply suf_fail | apply suf_panic | apply suf_nofuel
    | apply suf_read_n | apply suf_peek_n | apply suf_read1 | apply suf_peek1 | apply suf_skip_n
    | apply suf_own | apply suf_upd | apply suf_deref | solve [auto with suf]
    | apply suf_onr | apply suf_when | apply suf_bind | apply suf_if | apply suf_ignore
    | match goal with
      | |- forall _, _ => intro
      | |- suf _ (let '_ := ?x in _) => destruct x
      | |- suf _ (match ?x with _ => _ end) => destruct x
      end ].

Lemma suf_vid_align : sufr vid_align.
Proof.
  intros r x r' Hr H. unfold vid_align in H. destruct (is_aligned r); inversion H; subst; (split; [exact Hr|]); [now exists []|].
  exists (firstn (length (rbits r) mod 8) (rbits r)). cbn [align setb rbits]. now rewrite firstn_skipn.
Qed.
Lemma suf_nsc : sufr next_start_code.
Proof.
  unfold next_start_code. apply suf_bind; [apply suf_vid_align|]. intro. apply (suf_fuel _ nsc_loop). induction n; cbn [nsc_loop]; suf_tac.
Qed.
#[export] Hint Resolve suf_nsc suf_vid_align : suf.
Lemma suf_sc_assert : forall c, sufr (sc_assert c).
Proof. intro. unfold sc_assert, sc_check. suf_tac. Qed.
Lemma suf_id_assert : forall c, sufr (id_assert c).
Proof. intro. unfold id_assert, id_check. suf_tac. Qed.
Lemma suf_marker : sufr marker_bit.
Proof. unfold marker_bit. suf_tac. Qed.
Lemma suf_matrix : sufr read_matrix.
Proof. Transparent read_matrix. unfold read_matrix. generalize 64%nat. induction n; cbn [read_entries]; suf_tac. Qed.
Global Opaque read_matrix.
#[export] Hint Resolve suf_sc_assert suf_id_assert suf_marker suf_matrix : suf.
Lemma suf_user : sufr user_data.
Proof.
  unfold user_data. apply suf_bind; [auto with suf|]. intro. apply suf_bind; [|intro; suf_tac].
  apply (suf_fuel _ (fun n => user_loop n [])). intro n. generalize (@nil Z). induction n; intro; cbn [user_loop]; suf_tac.
Qed.
Lemma suf_extra : sufr (fun r => extra_loop (S (length (rbits r))) [] r).
Proof. apply (suf_fuel _ (fun n => extra_loop n [])). intro n. generalize (@nil Z). induction n; intro; cbn [extra_loop]; suf_tac. Qed.
#[export] Hint Resolve suf_user suf_extra : suf.
Lemma suf_disp : sufr sequence_display_extension.
Proof. unfold sequence_display_extension. suf_tac. Qed.
Lemma suf_scalable : sufr sequence_scalable_extension.
Proof. unfold sequence_scalable_extension. suf_tac. Qed.
Lemma suf_temp : sufr picture_temporal_scalable_extension.
Proof. unfold picture_temporal_scalable_extension. suf_tac. Qed.
Lemma suf_seq_fields : sufr sequence_header_fields.
Proof. unfold sequence_header_fields. suf_tac. Qed.
Lemma suf_sext_fields : sufr sequence_extension_fields.
Proof. unfold sequence_extension_fields. suf_tac. Qed.
#[export] Hint Resolve suf_disp suf_scalable suf_temp suf_seq_fields suf_sext_fields : suf.
Lemma suf_pic_fields : sufr picture_header_fields.
Proof. unfold picture_header_fields. suf_tac. Qed.
Lemma suf_pce_fields : sufr picture_coding_extension_fields.
Proof. unfold picture_coding_extension_fields. suf_tac. Qed.
Lemma suf_gop : sufr read_gop_header.
Proof. unfold read_gop_header. suf_tac. Qed.
Lemma suf_read_seq : sufr read_sequence_header.
Proof. unfold read_sequence_header. suf_tac. Qed.
#[export] Hint Resolve suf_pic_fields suf_pce_fields suf_gop suf_read_seq : suf.
Lemma suf_vs_seq : sufs vs_sequence_header.
Proof. unfold vs_sequence_header. suf_tac. Qed.
Lemma suf_assign : forall A set (m : M reader A), sufr m -> sufs (assign_header set m).
Proof.
  intros A set m H [v r] x s' Hr E. unfold assign_header in E. cbn [fst snd] in *. destruct (m r) as [ [a|e| |] r1] eqn:Em.
  - destruct (H _ _ _ Hr Em) as (R1 & l1 & E1). destruct (next_start_code r1) as [o r2] eqn:En. inversion E; subst. cbn [snd].
    destruct (suf_nsc _ _ _ R1 En) as (R2 & l2 & E2). split; auto. exists (l1 ++ l2). now rewrite E1, E2, app_assoc.
  - inversion E; subst. exact (H _ _ _ Hr Em).
  - inversion E; subst. exact (H _ _ _ Hr Em).
  - inversion E; subst. exact (H _ _ _ Hr Em).
Qed.
Lemma suf_vs_sext : sufs vs_sequence_extension.
Proof. apply suf_assign. auto with suf. Qed.
Lemma suf_vs_pic : sufs vs_picture_header.
Proof. apply suf_assign. auto with suf. Qed.
Lemma suf_vs_pce : sufs vs_picture_coding_extension.
Proof. apply suf_assign. auto with suf. Qed.
Lemma suf_quant : sufs quant_matrix_extension.
Proof. unfold quant_matrix_extension. suf_tac. Qed.
#[export] Hint Resolve suf_vs_seq suf_vs_sext suf_vs_pic suf_vs_pce suf_quant : suf.
Lemma suf_body : forall i, sufs (extension_body i).
Proof. intro. unfold extension_body. suf_tac. Qed.
#[export] Hint Resolve suf_body : suf.
Lemma suf_ext_data : forall f i, sufs (extension_data f i).
Proof. induction f; intro; cbn [extension_data]; suf_tac. Qed.
#[export] Hint Resolve suf_ext_data : suf.
Lemma suf_ext_user : forall f i, sufs (ext_user_loop f i).
Proof.
  induction f; intro; cbn [ext_user_loop]; suf_tac.
  apply (suf_fuels _ _ (fun n => extension_data n i)). intro. apply suf_ext_data.
Qed.
Lemma suf_ext_user_data : forall i, sufs (extension_and_user_data i).
Proof. intros i s x s' Hr E. eapply suf_ext_user; eauto. Qed.
#[export] Hint Resolve suf_ext_user_data : suf.

(** ** Blocks and macroblocks *)
Lemma suf_hdecode : forall A (t : htable A), sufr (hdecode t).
Proof.
  intros A t. unfold hdecode. generalize (2 + maxlen (codes_of t))%nat. intro n. generalize (codes_of t). induction n; intro c; cbn [hwalk]; suf_tac.
Qed.
#[export] Hint Resolve suf_hdecode : suf.
(** Computations that leave the state alone and end *)
Definition still {S A} (m : M S A) : Prop := forall s, snd (m s) = s /\ fst (m s) <> OutOfFuel.
Lemma still_ret : forall S A (a : A), still (S := S) (ret a).
Proof. intros S A a s. split; [reflexivity | discriminate]. Qed.
Lemma still_panic : forall S A, still (S := S) (A := A) panic.
Proof. intros S A s. split; [reflexivity | discriminate]. Qed.
Lemma still_bind : forall S A B (m : M S A) (k : A -> M S B), still m -> (forall a, still (k a)) -> still (bind m k).
Proof.
  intros S A B m k Hm Hk s. unfold bind. destruct (Hm s) as (E & N). destruct (m s) as [ [a|e| |] s1]; cbn [fst snd] in *; subst; try (split; [reflexivity | discriminate || auto]). apply Hk.
Qed.
Lemma still_if : forall S A (c : bool) (a b : M S A), still a -> still b -> still (if c then a else b).
Proof. intros S A [] a b; auto. Qed.
Lemma still_suf : forall S A rd (m : M S A), still m -> suf rd m.
Proof. intros S A rd m H s x s' Hr E. destruct (H s) as (Q & _). rewrite E in Q. cbn [snd] in Q. subst. split; auto. now exists []. Qed.
Lemma still_nf : forall S A (m : M S A), still m -> nf m.
Proof. intros S A m H s. apply H. Qed.
Ltac still_tac := repeat first [ apply still_ret | apply still_panic | solve [auto] | apply still_bind | apply still_if
  | match goal with |- forall _, _ => intro | |- still (let '_ := ?x in _) => destruct x | |- still (match ?x with _ => _ end) => destruct x end ].
Lemma still_mapM : forall S A B (f : A -> M S B) l, (forall a, still (f a)) -> still (mapM f l).
Proof. intros S A B f l H. induction l; cbn [mapM]; still_tac. Qed.
Lemma still_get : forall S p i, still (S := S) (pl_get p i).
Proof. intros. unfold pl_get. still_tac. Qed.
Lemma still_pel : forall S f i a b c d e g, still (S := S) (mc_pel f i a b c d e g).
Proof. intros. pose proof (still_get S) as G. unfold mc_pel, mc_sample. still_tac. Qed.
Lemma still_mc : forall S m i a b fs bl, still (S := S) (motion_compensation m i a b fs bl).
Proof. intros. pose proof (still_pel S) as G. unfold motion_compensation. apply still_mapM. still_tac. Qed.
Lemma still_write : forall S p a b l, still (S := S) (pl_write p a b l).
Proof. intros. unfold pl_write. still_tac. Qed.
Lemma still_rows : forall S rows p a b c d, still (S := S) (write_rows p a b c d rows).
Proof. intros S rows. pose proof (still_write S) as G. induction rows; intros; cbn [write_rows]; still_tac. Qed.
Lemma still_update : forall S a b c d f l, still (S := S) (update_frame_slice a b c d f l).
Proof. intros. pose proof (still_rows S) as G. unfold update_frame_slice. still_tac. Qed.
Lemma still_lines : forall S n v src dst a b c d e g, still (S := S) (copy_lines n v src dst a b c d e g).
Proof.
  intros S n. pose proof (still_write S) as G. assert (G2 : forall p a b, still (S := S) (pl_slice p a b)) by (intros; unfold pl_slice; still_tac).
  induction n; intros; cbn [copy_lines]; still_tac.
Qed.
Lemma still_pcopy : forall S a b c f g, still (S := S) (pframe_copy_macroblocks a b c f g).
Proof. intros. pose proof (still_lines S) as G. unfold pframe_copy_macroblocks. still_tac. Qed.
Lemma still_put : forall S m fs a b c d bl f, still (S := S) (put_block m fs a b c d bl f).
Proof. intros. pose proof (still_mc S) as G. pose proof (still_update S) as G2. unfold put_block. still_tac. Qed.
Lemma still_bblocks : forall S m fs a b is f, still (S := S) (bframe_blocks m fs a b is f).
Proof. intros S m fs a b is. pose proof (still_put S) as G. induction is; intros; cbn [bframe_blocks]; still_tac. Qed.
Lemma still_bcopy : forall S n m fs a b f, still (S := S) (bframe_copy_macroblocks n m fs a b f).
Proof. intros S n. pose proof (still_bblocks S) as G. induction n; intros; cbn [bframe_copy_macroblocks]; still_tac. Qed.
Lemma still_info : forall S e mb, still (S := S) (mv_info e mb).
Proof. intros. unfold mv_info. still_tac. Qed.
Lemma still_pattern : forall S a b c d, still (S := S) (pattern_code a b c d).
Proof. intros. unfold pattern_code. still_tac. Qed.
Lemma still_own : forall T R, still (own (T := T) (R := R)).
Proof. intros T R s. split; [reflexivity | discriminate]. Qed.
Lemma still_deref : forall S A (o : option A), still (S := S) (deref o).
Proof. intros. destruct o; [apply still_ret | apply still_panic]. Qed.
#[export] Hint Resolve still_suf still_nf still_put still_pcopy still_bcopy still_info still_pattern : suf.

Lemma suf_dct : forall one n, sufr (dct_of one n).
Proof. intros. unfold dct_of, dct_table_one, dct_table_zero, dct_decode. destruct one; suf_tac. Qed.
Lemma suf_bwrite : forall i v, sufs (bwrite i v).
Proof. intros i v [b r] x s' Hr E. unfold bwrite in E. cbn [fst snd] in E. destruct (_ && _); inversion E; subst; (split; [exact Hr | now exists []]). Qed.
#[export] Hint Resolve suf_bwrite suf_dct : suf.
Lemma suf_bzeros : forall k n, sufs (bzeros k n).
Proof. induction k; intro; cbn [bzeros]; suf_tac. Qed.
#[export] Hint Resolve suf_bzeros : suf.
Lemma suf_coeffs : forall f one n, sufs (block_coeffs f (dct_of one) n).
Proof. induction f; intros; cbn [block_coeffs]; suf_tac. Qed.
#[export] Hint Resolve suf_coeffs : suf.
Lemma suf_block_dc : forall cc, sufs (block_dc cc).
Proof.
  intro. unfold block_dc, dc_size_luma, dc_size_chroma. apply suf_bind; [suf_tac|]. intro. apply suf_bind; [suf_tac|]. intros d [b r] x s' Hr E. inversion E; subst. split; [exact Hr | now exists []].
Qed.
#[export] Hint Resolve suf_block_dc : suf.
Lemma dct_choice : forall c : bool, (if c then dct_table_one else dct_table_zero) = dct_of c.
Proof. intros []; reflexivity. Qed.
Lemma suf_block_read : forall a cc i, sufs (block_read a cc i).
Proof. intros. unfold block_read. rewrite dct_choice. suf_tac. Qed.
Lemma suf_mb_block_read : forall a cc i b, sufs (mb_block_read a cc i b).
Proof.
  intros a cc i b [m r] x s' Hr E. unfold mb_block_read in E. cbn [fst snd] in E.
  destruct (block_read a cc i (mkBS b (ms_dcp m), r)) as [o [bs r1] ] eqn:Q. pose proof (suf_block_read a cc i (mkBS b (ms_dcp m), r) _ _ Hr Q) as X.
  destruct o; inversion E; subst; exact X.
Qed.
#[export] Hint Resolve suf_mb_block_read : suf.
Lemma suf_mb_blocks : forall v e se mb row addr coded i b, sufs (mb_blocks v e se mb row addr i coded b).
Proof. intros v e se mb row addr coded. induction coded; intros; cbn [mb_blocks]; suf_tac. Qed.
Lemma suf_mb_increment : sufr mb_increment.
Proof.
  intros r x r' Hr E. unfold mb_increment in E. revert E. generalize (S (length (rbits r))). intros n E. revert Hr E.
  apply (suf_bind _ _ _ (fun r : reader => r) (mba_escapes n 0)); [generalize 0; induction n; intro; cbn [mba_escapes]; suf_tac | intro; unfold mba_decode; suf_tac].
Qed.
Lemma suf_mvs : forall e mb s, sufs (motion_vectors e mb s).
Proof. intros. unfold motion_vectors, motion_vector, motion_vector_part, motion_code_decode. suf_tac. Qed.
Lemma suf_mode : forall p e, sufr (macroblock_mode p e).
Proof. intros. unfold macroblock_mode, mbtype_decode_I, mbtype_decode_P, mbtype_decode_B. suf_tac. Qed.
Lemma suf_cbp : forall c, sufr (coded_block_pattern c).
Proof.
  intros c r x r' Hr E. unfold coded_block_pattern in E. destruct (cbp_decode r) as [o r1] eqn:Q. pose proof (suf_hdecode _ _ _ _ _ Hr Q) as X.
  destruct (_ || _); inversion E; subst; exact X.
Qed.
#[export] Hint Resolve suf_mb_blocks suf_mb_increment suf_mvs suf_mode suf_cbp : suf.
Lemma suf_copy : forall v p a b c, sufs (copy_skipped v p a b c).
Proof. intros. unfold copy_skipped. suf_tac. Qed.
#[export] Hint Resolve suf_copy : suf.
Lemma suf_macroblock : forall v row addr, sufs (macroblock v row addr).
Proof. intros. unfold macroblock, reset_dc, reset_mv. suf_tac. Qed.
#[export] Hint Resolve suf_macroblock : suf.
Lemma suf_slice_loop : forall f v row addr, sufs (slice_loop f v row addr).
Proof. induction f; intros; cbn [slice_loop]; suf_tac. Qed.
#[export] Hint Resolve suf_slice_loop : suf.
Lemma suf_slice_flags : sufr slice_flags.
Proof.
  unfold slice_flags. suf_tac. apply (suf_fuel _ slice_extra). induction n; cbn [slice_extra]; suf_tac.
Qed.
#[export] Hint Resolve suf_slice_flags : suf.
