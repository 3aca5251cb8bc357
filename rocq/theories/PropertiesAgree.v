(** PropertiesAgree: C130 - the two ways to the payload of a PID, Demuxer and NewPayloadReader, agree. *)
From Coq Require Import Lia.
From Verif Require Import Base BitReader TsModel SpecTs SpecIO SpecFaults TsProofs TsReaders PropertiesTs Conc ConcProofs PropertiesTsConc PropertiesFaults.

(** The reads up to the first that returns an error, or does not return *)
Fixpoint to_error (outs : list (list Z * option err)) : list (list Z * option err) :=
  match outs with
  | [] => []
  | (b, None) :: t => (b, None) :: to_error t
  | o :: _ => [o]
  end.
Fixpoint to_failure (outs : list (res (list Z * option err))) : list (res (list Z * option err)) :=
  match outs with
  | [] => []
  | Ok (b, None) :: t => Ok (b, None) :: to_failure t
  | o :: _ => [o]
  end.

Lemma parsed_calls : forall (f : packet -> list Z) st ps x e, parsed st ps x -> x = Err e ->
  exists s, calls packet_next f (length ps + 1) st (map Byte (flat_map f ps) ++ [Fault e]) s.
Proof.
  intros f st ps x e H. induction H as [st x st' E N | st [p r] ps x E H IH]; intros ->.
  - exists st'. cbn [length Nat.add flat_map map app]. eapply calls_error; [exact E | constructor].
  - destruct (IH eq_refl) as (s & C). exists s. cbn [length Nat.add flat_map fst]. rewrite map_app, <- app_assoc. eapply calls_ok; [exact E | exact C].
Qed.
Lemma tape_one : forall e n c, match ideal_read e n c with
  | ((b, None), c') => tape_read n (map Byte c ++ [Fault e]) = Some ((b, None), map Byte c' ++ [Fault e])
  | (o, _) => tape_read n (map Byte c ++ [Fault e]) = Some (o, []) end.
Proof.
  intros e n. induction n as [|n IH]; intros c; [reflexivity|]. destruct c as [|b c]; [reflexivity|]. specialize (IH c). cbn [map app tape_read]. unfold ideal_read in *. cbn [length].
  change (S n <=? S (length c))%nat with (n <=? length c)%nat. destruct (n <=? length c)%nat; rewrite IH; reflexivity.
Qed.
Lemma tape_prefix : forall e sizes c, exists k, tape_reads (firstn k sizes) (map Byte c ++ [Fault e]) = Some (to_error (ideal_reads e sizes c)) /\
  ((length sizes <= k)%nat /\ to_error (ideal_reads e sizes c) = ideal_reads e sizes c \/ exists outs o e', to_error (ideal_reads e sizes c) = outs ++ [(o, Some e')]) /\
  Forall (fun o => snd o = None) (removelast (to_error (ideal_reads e sizes c))).
Proof.
  intros e sizes. induction sizes as [|n sizes IH]; intro c.
  - exists 0%nat. split; [reflexivity|]. split; [left; split; [cbn; lia | reflexivity] | constructor].
  - pose proof (tape_one e n c) as T. cbn [ideal_reads]. destruct (ideal_read e n c) as [ [b [e'|] ] c'] eqn:I.
    + exists 1%nat. cbn [firstn tape_reads]. rewrite T. cbn [to_error]. split; [reflexivity|]. split; [right; exists [], b, e'; reflexivity | constructor].
    + destruct (IH c') as (k & R & D & F). exists (S k). cbn [firstn tape_reads]. rewrite T, R. cbn [to_error]. split; [reflexivity|]. split.
      * destruct D as [(D1 & D2) | (outs & o & e' & D)]; [left | right; exists ((b, None) :: outs), o, e'; now rewrite D].
        split; [cbn [length]; lia | now rewrite D2].
      * destruct (to_error (ideal_reads e sizes c')); [constructor|]. change (removelast ((b, None) :: p :: l)) with ((b, @None err) :: removelast (p :: l)). constructor; [reflexivity | exact F].
Qed.
Lemma reads_prefix : forall fuel k sizes s, firstn k (pr_reads fuel sizes s) = pr_reads fuel (firstn k sizes) s.
Proof.
  intros fuel k. induction k as [|k IH]; intros sizes s; [reflexivity|]. destruct sizes as [|n sizes]; [reflexivity|].
  cbn [pr_reads firstn]. destruct (pr_read fuel n s) as [o s'] eqn:E. cbn [firstn]. now rewrite IH.
Qed.
Lemma failure_stops : forall outs o e rest, Forall (fun o => snd o = None) outs -> to_failure (map Ok (outs ++ [(o, Some e)]) ++ rest) = map Ok (outs ++ [(o, Some e)]).
Proof. intros outs o e rest F. induction F as [|[b z] outs H F IH]; [reflexivity|]. cbn in H. subst z. cbn [map app to_failure]. now rewrite IH. Qed.
Lemma failure_error : forall outs, to_failure (map Ok outs) = map Ok (to_error outs).
Proof. intro outs. induction outs as [|[b [e|] ] outs IH]; [reflexivity | reflexivity|]. cbn [map to_failure to_error]. now rewrite IH. Qed.
Lemma reads_to_failure : forall w r ps e sizes fuel, parsed (zero_packet, r) ps (Err e) -> (length ps + 1 <= fuel)%nat ->
  to_failure (pr_reads fuel sizes (new_preader r w)) = map Ok (to_error (ideal_reads e sizes (flat_map (fun p => if w p then pk_payload p else []) ps))).
Proof.
  intros w r ps e sizes fuel P F. destruct (parsed_calls (fun p => if w p then pk_payload p else []) _ _ _ e P eq_refl) as (s & C).
  set (c := flat_map (fun p => if w p then pk_payload p else []) ps) in *. destruct (tape_prefix e sizes c) as (k & T & D & N).
  pose proof (C100_ts_delivers w r _ _ _ _ _ fuel C T F) as R. rewrite <- reads_prefix in R.
  destruct D as [(D1 & D2) | (outs & o & e' & D)].
  - rewrite D2 in R. rewrite firstn_all2 in R; [now rewrite R, failure_error|].
    enough (L : length (pr_reads fuel sizes (new_preader r w)) = length sizes) by lia.
    generalize (new_preader r w). clear. induction sizes as [|n sizes IH]; intro s; [reflexivity|]. cbn [pr_reads]. destruct (pr_read fuel n s) as [o s']. cbn [length]. now rewrite IH.
  - rewrite <- (firstn_skipn k (pr_reads fuel sizes (new_preader r w))), R. rewrite D in *. rewrite removelast_last in N. now apply failure_stops.
Qed.
Lemma window_all : forall ps, window always_true always_true ps = ps.
Proof.
  intro ps. unfold window. destruct ps as [|p ps]; [reflexivity|]. cbn. f_equal. induction ps as [|q ps IH]; [reflexivity|]. cbn. now rewrite IH.
Qed.

(** A Demuxer over any bytes, with any number of channels, once it is done: the payloads, as they were when their packets were received
    from the channel of tester [w], are in this order the bytes that NewPayloadReader with [w] delivers over the same bytes, whatever the sizes of the reads;
    and the first error of the reads is the one Err returns. *)
Theorem C130_agree_partial : forall ts i w r s e, rlater r = [] -> star (dstep ts always_true always_true) (d_init r) s ->
  nth_error ts i = Some w -> d_dones s = 1%nat -> d_err s = Some e ->
  exists enough, forall fuel sizes, (enough <= fuel)%nat ->
    to_failure (pr_reads fuel sizes (new_preader r w)) = map Ok (to_error (ideal_reads e sizes (concat (map pk_payload (received i (d_log s)))))).
Proof.
  intros ts i w r s e L H N D E. destruct (C15_source r L) as (ps & x & P). destruct (C15_done _ _ _ _ _ _ _ P H) as (_ & _ & F). destruct (F D) as (_ & R & X).
  rewrite E in X. assert (x = Err e) by (destruct (stopped always_true always_true ps); [discriminate X|]; destruct x; try discriminate X; congruence). subst x.
  exists (length ps + 1)%nat. intros fuel sizes Lf. rewrite (reads_to_failure w r ps e sizes fuel P Lf). do 3 f_equal. rewrite (R i w N), window_all.
  clear. induction ps as [|p ps IH]; [reflexivity|]. cbn [flat_map filter]. rewrite IH. destruct (w p); reflexivity.
Qed.

(** With the same tester given to TakeWhile of both it is false.  Whenever the first packet [q] passes it and the second, [p], does not, the
    demuxer ends before [p] and the reader after it. *)
Theorem C130_take_refuted : forall w t q p r n s fuel, tester_ok w -> tester_ok t -> Forall wf_sp [q; p] -> rlater r = [] ->
  w (go_packet q) = true -> has_payload q = true -> w (go_packet p) = true -> has_payload p = true -> t (go_packet q) = true -> t (go_packet p) = false ->
  sp_payload p <> [] -> (length (sp_payload q ++ sp_payload p) <= n)%nat -> (length (sp_payload q) < n)%nat -> (2 <= fuel)%nat ->
  star (dstep [w] always_true t) (d_init (setb r (enc_sps [q; p]))) s -> d_dones s = 1%nat ->
  pr_reads fuel [n] (pr_take_while t (new_preader (setb r (enc_sps [q; p])) w)) = [Ok (sp_payload q ++ sp_payload p, Some EEOF)] /\
  concat (map pk_payload (received 0 (d_log s))) = sp_payload q.
Proof.
  intros w t q p r n s fuel Ow Ot W L Wq Hq Wp Hp Tq Tp NE Ln Lq Lf H D. split.
  - pose proof (C11_take_while w t r [q] p [] [n] fuel Ow Ot W) as R. cbn [app map filter cut_reads cut_read] in R. rewrite R; clear R.
    + rewrite Wq, Wp. cbn [map concat]. rewrite app_nil_r. rewrite (proj2 (Nat.leb_gt _ _)) by lia. cbn [map]. now rewrite firstn_all2 by lia.
    + repeat (apply Forall_cons; [auto|]). constructor.
    + repeat constructor. exact Tq.
    + exact Tp.
    + cbn. lia.
  - apply Forall_cons_iff in W. destruct W as [W1 W2]. pose proof (Forall_inv W2) as W3.
    set (q1 := over_packet zero_packet q). set (q2 := over_packet q1 p).
    assert (P : parsed (zero_packet, setb r (enc_sps [q; p])) [q1; q2] (Err (rfin r))).
    { eapply (parsed_cons _ (q1, _)); [apply next_cons; assumption|]. eapply (parsed_cons _ (q2, _)); [apply next_cons; [assumption | constructor]|].
      eapply parsed_end; [now apply next_nil | discriminate]. }
    destruct (C15_done _ _ _ _ _ _ _ P H) as (_ & _ & F). destruct (F D) as (_ & R & _). rewrite (R 0%nat w eq_refl).
    unfold window. cbn [from_first always_true take_while]. unfold q1, q2. rewrite (tester_over t _ p Ot), Tp. cbn [filter]. rewrite (tester_over w _ q Ow), Wq.
    cbn [map concat]. rewrite app_nil_r. now apply over_payload.
Qed.

Lemma parsed_over : forall ss p r, rlater r = [] -> Forall wf_sp ss ->
  exists l, parsed (p, setb r (enc_sps ss)) l (Err (rfin r)) /\ Forall2 (fun q s => exists p', q = over_packet p' s) l ss.
Proof.
  intros ss. induction ss as [|s ss IH]; intros p r L W.
  - exists []. split; [|constructor]. eapply parsed_end; [now apply next_nil | discriminate].
  - apply Forall_cons_iff in W. destruct W as [W1 W2]. destruct (IH (over_packet p s) r L W2) as (l & P & F). exists (over_packet p s :: l).
    split; [eapply (parsed_cons _ (over_packet p s, _)); [now apply next_cons | exact P] | constructor; [eauto | exact F] ].
Qed.
Lemma over_content : forall w l ss, tester_ok w -> Forall2 (fun q s => exists p', q = over_packet p' s) l ss ->
  Forall (fun s => w (go_packet s) = true -> has_payload s = true) ss ->
  concat (map pk_payload (filter w l)) = concat (map sp_payload (filter (fun s => w (go_packet s)) ss)).
Proof.
  intros w l ss O F. induction F as [|q s l ss (p' & ->) F IH]; intro H; [reflexivity|]. apply Forall_cons_iff in H. destruct H as [H1 H2].
  cbn [filter]. rewrite (tester_over w p' s O). destruct (w (go_packet s)) eqn:E; [|now apply IH]. cbn [map concat]. rewrite over_payload by auto. now rewrite IH.
Qed.
Lemma over_first : forall t pre s0 post l, tester_ok t -> Forall2 (fun q s => exists p', q = over_packet p' s) l (pre ++ s0 :: post) ->
  Forall (fun s => t (go_packet s) = false) pre -> t (go_packet s0) = true ->
  Forall2 (fun q s => exists p', q = over_packet p' s) (from_first t l) (s0 :: post).
Proof.
  intros t pre s0 post. induction pre as [|s pre IH]; intros l O F N T; inversion F as [|q s' l' ss' (p' & Eq) F']; subst; cbn [from_first]; rewrite (tester_over t p' _ O).
  - rewrite T. constructor; [eauto | exact F'].
  - apply Forall_cons_iff in N. destruct N as [N1 N2]. rewrite N1. now apply IH.
Qed.
Lemma take_all : forall l, take_while always_true l = l.
Proof. intro l. induction l as [|q l IH]; [reflexivity|]. cbn. now rewrite IH. Qed.
(** What the demuxer has delivered at its end, with SkipUntil [t], of encoded packets: the payloads from the first match on, [s0], that pass [w]. *)
Lemma demuxer_skip : forall ts i w t r pre s0 post s, tester_ok w -> tester_ok t -> rlater r = [] -> Forall wf_sp (pre ++ s0 :: post) ->
  Forall (fun s => t (go_packet s) = false) pre -> t (go_packet s0) = true ->
  Forall (fun s => w (go_packet s) = true -> has_payload s = true) (s0 :: post) ->
  star (dstep ts t always_true) (d_init (setb r (enc_sps (pre ++ s0 :: post)))) s -> nth_error ts i = Some w -> d_dones s = 1%nat ->
  concat (map pk_payload (received i (d_log s))) = concat (map sp_payload (filter (fun s => w (go_packet s)) (s0 :: post))).
Proof.
  intros ts i w t r pre s0 post s Ow Ot L W N T C H I D. destruct (parsed_over _ zero_packet r L W) as (l & P & F).
  destruct (C15_done _ _ _ _ _ _ _ P H) as (_ & _ & G). destruct (G D) as (_ & R & _). rewrite (R i w I).
  pose proof (over_first t pre s0 post l Ot F N T) as F1. unfold window. destruct (from_first t l) as [|q l'] eqn:E; [inversion F1|]. rewrite take_all.
  now apply over_content.
Qed.

(** With the same tester given to SkipUntil of both: they agree on encoded packets if the first match passes the filter. *)
Theorem C130_skip_partial : forall ts i w t r pre s0 post s sizes n fuel, tester_ok w -> tester_ok t -> rlater r = [] -> Forall wf_sp (pre ++ s0 :: post) ->
  Forall (fun s => t (go_packet s) = false) pre -> t (go_packet s0) = true -> w (go_packet s0) = true ->
  Forall (fun s => w (go_packet s) = true -> has_payload s = true) (s0 :: post) ->
  star (dstep ts t always_true) (d_init (setb r (enc_sps (pre ++ s0 :: post)))) s -> nth_error ts i = Some w -> d_dones s = 1%nat ->
  (length pre + length post + 1 < fuel)%nat ->
  pr_reads fuel (n :: sizes) (pr_skip_until t (new_preader (setb r (enc_sps (pre ++ s0 :: post))) w)) =
  map Ok (ideal_reads (rfin r) (n :: sizes) (concat (map pk_payload (received i (d_log s))))).
Proof.
  intros ts i w t r pre s0 post s sizes n fuel Ow Ot L W N T W0 C H I D Lf.
  rewrite (C12_skip_until w t r pre s0 post sizes n fuel) by auto. do 2 f_equal. symmetry. now apply (demuxer_skip ts i w t r pre s0 post s).
Qed.
(** Otherwise they do not: the reader delivers the payload of the first match all the same. *)
Theorem C130_skip_refuted : forall ts i w t r pre s0 post s sizes n fuel, tester_ok w -> tester_ok t -> rlater r = [] -> Forall wf_sp (pre ++ s0 :: post) ->
  Forall (fun s => t (go_packet s) = false) pre -> t (go_packet s0) = true -> w (go_packet s0) = false -> has_payload s0 = true ->
  Forall (fun s => w (go_packet s) = true -> has_payload s = true) post ->
  star (dstep ts t always_true) (d_init (setb r (enc_sps (pre ++ s0 :: post)))) s -> nth_error ts i = Some w -> d_dones s = 1%nat ->
  (length pre + length post + 1 < fuel)%nat ->
  pr_reads fuel (n :: sizes) (pr_skip_until t (new_preader (setb r (enc_sps (pre ++ s0 :: post))) w)) =
  map Ok (ideal_reads (rfin r) (n :: sizes) (sp_payload s0 ++ concat (map pk_payload (received i (d_log s))))).
Proof.
  intros ts i w t r pre s0 post s sizes n fuel Ow Ot L W N T W0 H0 C H I D Lf.
  rewrite (C12_skip_until_partial w t r pre s0 post sizes n fuel) by auto. do 3 f_equal. symmetry. assert (C0 : Forall (fun s => w (go_packet s) = true -> has_payload s = true) (s0 :: post)) by (constructor; [intro; assumption | exact C]).
  rewrite (demuxer_skip ts i w t r pre s0 post s) by auto.
  cbn [filter]. now rewrite W0.
Qed.

(** ** Examples *)
Example C130_agree_hyp : exists s, star (dstep [IsPID 256; always_true] always_true always_true) (d_init (setb ex_src (enc_sps [ex_p1; ex_p3]))) s /\
  d_dones s = 1%nat /\ d_err s = Some EEOF /\ length (received 0 (d_log s)) = 1%nat.
Proof.
  destruct C15_run as (ps & s & P & H & E & N & _). exists s. split; [exact H|]. destruct (C15_done _ _ _ _ _ _ _ P H) as (_ & D & F). assert (D1 : d_dones s = 1%nat) by now apply D.
  split; [exact D1|]. split; [|exact N]. destruct (F D1) as (_ & _ & X). rewrite X. unfold stopped.
  assert (Z0 : forall l : list packet, existsb (fun q => negb (always_true q)) l = false) by (induction l as [|? l IH]; [reflexivity | exact IH]).
  destruct (from_first always_true ps); [reflexivity | now rewrite Z0].
Qed.
Example C130_take_hyp : let t := t_not (t_and (IsPID 256) (fun p => pk_cc p =? 4)) in
  tester_ok t /\ Forall wf_sp [ex_p1; ex_p4] /\ t (go_packet ex_p1) = true /\ t (go_packet ex_p4) = false /\
  IsPID 256 (go_packet ex_p1) = true /\ IsPID 256 (go_packet ex_p4) = true /\ has_payload ex_p1 = true /\ has_payload ex_p4 = true /\
  (length (sp_payload ex_p1 ++ sp_payload ex_p4) <= 400)%nat /\
  exists s, star (dstep [IsPID 256] always_true t) (d_init (setb ex_src (enc_sps [ex_p1; ex_p4]))) s /\ d_dones s = 1%nat.
Proof.
  cbv zeta. split; [apply ok_not, ok_and; [apply ok_IsPID|]; intros p q V; unfold view in V; congruence|]. split; [repeat (apply Forall_cons; [first [apply ex_p1_wf | apply ex_p4_wf]|]); constructor|].
  repeat (split; [reflexivity|]). split; [apply Nat.leb_le; reflexivity|].
  destruct (C15_can_end [IsPID 256] always_true (t_not (t_and (IsPID 256) (fun p => pk_cc p =? 4))) (setb ex_src (enc_sps [ex_p1; ex_p4])) _ eq_refl (star_refl _ _)) as (s & H & E).
  exists s. split; [exact H|]. destruct (C15_source (setb ex_src (enc_sps [ex_p1; ex_p4])) eq_refl) as (ps & x & P).
  destruct (C15_done _ _ _ _ _ _ _ P H) as (_ & D & _). now apply D.
Qed.

(** Skipping until PID 256, which is the first of four packets; for the channel of PID 17 it does not pass the filter. *)
Example C130_skip_hyp : tester_ok (IsPID 256) /\ Forall wf_sp ([] ++ ex_p1 :: [ex_p2; ex_p3; ex_p4]) /\
  IsPID 256 (go_packet ex_p1) = true /\ IsPID 17 (go_packet ex_p1) = false /\ has_payload ex_p1 = true /\
  Forall (fun s => IsPID 256 (go_packet s) = true -> has_payload s = true) (ex_p1 :: [ex_p2; ex_p3; ex_p4]) /\
  Forall (fun s => IsPID 17 (go_packet s) = true -> has_payload s = true) [ex_p4] /\
  exists s, star (dstep [IsPID 256] (IsPID 256) always_true) (d_init (setb ex_src (enc_sps ([] ++ ex_p1 :: [ex_p2; ex_p3; ex_p4])))) s /\ d_dones s = 1%nat.
Proof.
  split; [apply ok_IsPID|]. split; [apply ex_wf|]. split; [reflexivity|]. split; [reflexivity|]. split; [reflexivity|].
  split; [repeat (apply Forall_cons; [cbn; intro; first [reflexivity | discriminate]|]); constructor|].
  split; [repeat (apply Forall_cons; [cbn; intro; first [reflexivity | discriminate]|]); constructor|].
  destruct (C15_can_end [IsPID 256] (IsPID 256) always_true (setb ex_src (enc_sps ([] ++ ex_p1 :: [ex_p2; ex_p3; ex_p4]))) _ eq_refl (star_refl _ _)) as (s & H & E).
  exists s. split; [exact H|]. destruct (C15_source (setb ex_src (enc_sps ([] ++ ex_p1 :: [ex_p2; ex_p3; ex_p4]))) eq_refl) as (ps & x & P).
  destruct (C15_done _ _ _ _ _ _ _ P H) as (_ & D & _). now apply D.
Qed.

Print Assumptions C130_agree_partial.
Print Assumptions C130_take_refuted.
Print Assumptions C130_skip_partial.
Print Assumptions C130_skip_refuted.
