(** TsDefects: what the parser does with adaptation field extensions it does not fully read. *)
From Verif Require Import Base BitReader Exec Local TsModel SpecTs TsProofs TsLocal TsRobust.

Lemma dts_next_split : forall d, 0 <= d < 2 ^ 33 ->
  (d / 2 ^ 30) mod 2 ^ Z.of_nat 3 * 2 ^ 30 + (d / 2 ^ 15) mod 2 ^ Z.of_nat 15 * 2 ^ 15 + d mod 2 ^ Z.of_nat 15 = d.
Proof.
  intros d H. change (Z.of_nat 3) with 3. change (Z.of_nat 15) with 15.
  rewrite (Z.mod_small (d / 2 ^ 30)).
  2:{ split; [apply Z.div_pos; lia | apply Z.div_lt_upper_bound; lia]. }
  assert (E : d / 2 ^ 30 = d / 2 ^ 15 / 2 ^ 15) by (rewrite Z.div_div by lia; reflexivity).
  rewrite E. pose proof (Z.div_mod (d / 2 ^ 15) (2 ^ 15) ltac:(lia)).
  pose proof (Z.div_mod d (2 ^ 15) ltac:(lia)).
  change (2 ^ 30) with (2 ^ 15 * 2 ^ 15). nia.
Qed.

(** The part of an extension that newAdaptationExt leaves unread: the last marker bit of a seamless
    splice and the reserved bytes. *)
Definition ext_unread (x : sext) : list bool :=
  (match sx_seamless x with Some _ => [true] | None => [] end) ++ bb (sx_reserved x).

Lemma new_ext_any : forall x r l, wf_sext x -> sext_len x < 256 ->
  new_ext (setb r (enc_sext x ++ l)) = (Ok (go_ext x, sext_len x), setb r (ext_unread x ++ l)).
Proof.
  intros x r l (H1 & H2 & H3 & H4 & H5) Hl.
  pose proof (sext_len_pos x) as Hp.
  unfold new_ext, enc_sext, ext_unread. rewrite <- !app_assoc.
  erewrite bind_ok by (apply read_enc; cbn; lia).
  rewrite (proj2 (Z.leb_le 1 _)) by lia.
  xrun.
  pose proof (blen_nonneg (sx_reserved x)).
  destruct (sx_ltw x) as [[v o]|] eqn:E1; cbn [is_some];
  destruct (sx_pwr x) as [[q w]|] eqn:E2; cbn [is_some];
  destruct (sx_seamless x) as [[t d]|] eqn:E3; cbn [is_some];
  assert (HL := eq_refl (sext_len x)); unfold sext_len at 2 in HL; rewrite E1, E2, E3 in HL; cbn [olen] in HL;
  unfold go_ext; rewrite E1, E2, E3; cbn [is_some];
  unfold enc_dts_next; rewrite <- ?app_assoc; cbn [app];
  repeat (first
    [ rewrite andb_false_r
    | rewrite andb_true_r
    | rewrite (proj2 (Z.leb_le 2 _)) by lia
    | rewrite (proj2 (Z.leb_le 3 _)) by lia
    | rewrite (proj2 (Z.leb_le 5 _)) by lia
    | xstep
    | erewrite bind_ok by apply read_enc_mod
    | erewrite bind_ok by (apply ignore_ok; apply (skip_app 1 r (bit true)); reflexivity) ]);
  unfold ret; rewrite ?dts_next_split by lia; reflexivity.
Qed.
