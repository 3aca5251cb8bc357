(** PropertiesAgreeUnits: C132 - NewPayloadUnitReader delivers the bytes of NewPayloadReader, cut into units. *)
From Coq Require Import Lia.
From Verif Require Import Base BitReader TsModel SpecTs SpecIO TsProofs TsReaders PropertiesTs.

(** The payload of the packets that [w] accepts, and those that start a unit *)
Definition bytes_of (w : tester) (ps : list spacket) : list Z := concat (map sp_payload (filter (fun s => w (go_packet s)) ps)).
Definition unit_start (w : tester) (s : spacket) : bool := w (go_packet s) && sp_pusi s.

Lemma none_units : forall w l cur, Forall (fun s => unit_start w s = false) l -> units_from w cur l = [cur ++ bytes_of w l].
Proof.
  intros w l cur F. rewrite <- (app_nil_r l) at 1. rewrite units_from_app by exact F. reflexivity.
Qed.
Lemma units_last : forall w body cur t tail, unit_start w t = true -> Forall (fun s => unit_start w s = false) tail ->
  exists us, units_from w cur (body ++ t :: tail) = us ++ [bytes_of w (t :: tail)] /\ concat us = cur ++ bytes_of w body.
Proof.
  intros w body. induction body as [|s body IH]; intros cur t tail T F.
  - exists [cur]. cbn [app units_from]. change (starts w t) with (unit_start w t). rewrite T, none_units by exact F. split; [|reflexivity]. cbn [app]. f_equal. f_equal.
    unfold bytes_of. cbn [filter]. unfold unit_start in T. destruct (w (go_packet t)); [reflexivity | discriminate T].
  - cbn [app units_from]. change (starts w s) with (unit_start w s). change (accepted w s) with (w (go_packet s)). unfold bytes_of in *. cbn [filter]. destruct (unit_start w s) eqn:E.
    + destruct (IH (sp_payload s) t tail T F) as (us & U & C). exists (cur :: us). rewrite U. split; [reflexivity|]. cbn [concat]. rewrite C.
      unfold unit_start in E. destruct (w (go_packet s)); [reflexivity | discriminate E].
    + destruct (IH (if w (go_packet s) then cur ++ sp_payload s else cur) t tail T F) as (us & U & C). exists us. split; [exact U|]. rewrite C.
      destruct (w (go_packet s)); [cbn [map concat]; now rewrite app_assoc | reflexivity].
Qed.
Lemma complete_split : forall w pre body t tail, Forall (fun s => unit_start w s = false) pre ->
  match body with [] => True | s :: _ => unit_start w s = true end -> unit_start w t = true -> Forall (fun s => unit_start w s = false) tail ->
  concat (complete_units w (pre ++ body ++ t :: tail)) = bytes_of w body.
Proof.
  intros w pre body t tail P B T F. unfold complete_units.
  assert (E : units w (pre ++ body ++ t :: tail) = units w (body ++ t :: tail)).
  { induction P as [|s pre H P IH]; [reflexivity|]. cbn [app units]. change (starts w s) with (unit_start w s). rewrite H. exact IH. }
  rewrite E. destruct body as [|s body]; cbn [app units].
  - change (starts w t) with (unit_start w t). rewrite T, none_units by exact F. reflexivity.
  - change (starts w s) with (unit_start w s). rewrite B. destruct (units_last w body (sp_payload s) t tail T F) as (us & U & C). rewrite U, removelast_last, C.
    unfold bytes_of. cbn [filter]. unfold unit_start in B. destruct (w (go_packet s)); [reflexivity | discriminate B].
Qed.

(** Of any packets - some before the first start of a unit, then those up to the last start, [t], then the rest - the unit reader delivers units that, joined,
    are the bytes the payload reader delivers, without those before the first start and those of the last unit. *)
Theorem C132_joined : forall w r pre body t tail sizes sizes' fuel, tester_ok w -> rlater r = [] ->
  Forall wf_sp (pre ++ body ++ t :: tail) -> Forall (fun s => w (go_packet s) = true -> has_payload s = true) (pre ++ body ++ t :: tail) ->
  Forall (fun s => unit_start w s = false) pre -> match body with [] => True | s :: _ => unit_start w s = true end ->
  unit_start w t = true -> Forall (fun s => unit_start w s = false) tail -> (length (pre ++ body ++ t :: tail) < fuel)%nat ->
  exists us,
    ur_reads fuel sizes (new_ureader (setb r (enc_sps (pre ++ body ++ t :: tail))) w) = map Ok (unit_reads (rfin r) sizes None us) /\
    pr_reads fuel sizes' (new_preader (setb r (enc_sps (pre ++ body ++ t :: tail))) w) =
      map Ok (ideal_reads (rfin r) sizes' (bytes_of w pre ++ concat us ++ bytes_of w (t :: tail))) /\
    Forall (fun u => exists first rest, u = sp_payload first ++ bytes_of w rest /\ In first body /\ unit_start w first = true /\ Forall (fun s => unit_start w s = false) rest) us.
Proof.
  intros w r pre body t tail sizes sizes' fuel O L W H P B T F Lf. exists (complete_units w (pre ++ body ++ t :: tail)).
  split; [now apply C13_unit_reader|]. split.
  - rewrite (C10_payload_reader w r _ sizes' fuel) by auto. do 2 f_equal. rewrite (complete_split w pre body t tail P B T F). unfold bytes_of.
    now rewrite !filter_app, !map_app, !concat_app.
  - assert (G : forall body first rest, unit_start w first = true -> Forall (fun s => unit_start w s = false) rest ->
      Forall (fun u => exists f rest, u = sp_payload f ++ bytes_of w rest /\ (f = first \/ In f body) /\ unit_start w f = true /\ Forall (fun s => unit_start w s = false) rest)
        (removelast (units_from w (sp_payload first ++ bytes_of w rest) (body ++ t :: tail)))).
    { clear - T F. induction body as [|s body IH]; intros first rest U R.
      - cbn [app units_from]. change (starts w t) with (unit_start w t). rewrite T, none_units by exact F. cbn [removelast]. constructor; [|constructor]. exists first, rest. auto.
      - cbn [app units_from]. change (starts w s) with (unit_start w s). change (accepted w s) with (w (go_packet s)). destruct (unit_start w s) eqn:E.
        + pose proof (IH s [] E (Forall_nil _)) as I. change (bytes_of w []) with (@nil Z) in I. rewrite app_nil_r in I.
          destruct (units_from w (sp_payload s) (body ++ t :: tail)) as [|u us] eqn:Q.
          { destruct (units_last w body (sp_payload s) t tail T F) as (us & V & _). rewrite Q in V. destruct us; discriminate V. }
          change (removelast ((sp_payload first ++ bytes_of w rest) :: u :: us)) with ((sp_payload first ++ bytes_of w rest) :: removelast (u :: us)).
          constructor; [exists first, rest; auto|]. eapply Forall_impl; [|exact I]. intros x (f & rr & A1 & A2 & A3 & A4). exists f, rr. repeat (split; auto). right. destruct A2; [left; auto | right; auto].
        + assert (Q : (if w (go_packet s) then (sp_payload first ++ bytes_of w rest) ++ sp_payload s else sp_payload first ++ bytes_of w rest) = sp_payload first ++ bytes_of w (rest ++ [s])).
          { unfold bytes_of. rewrite filter_app, map_app, concat_app. cbn [filter]. destruct (w (go_packet s)); cbn [map concat]; rewrite ?app_nil_r, ?app_assoc; reflexivity. }
          rewrite Q. eapply Forall_impl; [|apply (IH first (rest ++ [s]) U); apply Forall_app; split; [exact R | constructor; [exact E | constructor] ] ].
          intros x (f & rr & A1 & A2 & A3 & A4). exists f, rr. repeat (split; auto). destruct A2; [auto | right; now right]. }
    unfold complete_units. assert (E : units w (pre ++ body ++ t :: tail) = units w (body ++ t :: tail)).
    { clear - P. induction P as [|s pre H P IH]; [reflexivity|]. cbn [app units]. change (starts w s) with (unit_start w s). rewrite H. exact IH. }
    rewrite E. destruct body as [|s body]; cbn [app units].
    + change (starts w t) with (unit_start w t). rewrite T, none_units by exact F. constructor.
    + change (starts w s) with (unit_start w s). rewrite B. pose proof (G body s [] B (Forall_nil _)) as I. change (bytes_of w []) with (@nil Z) in I. rewrite app_nil_r in I.
      eapply Forall_impl; [|exact I]. intros x (f & rr & A1 & A2 & A3 & A4). exists f, rr. repeat (split; auto). destruct A2; [left; auto | right; auto].
Qed.

(** ** An example: one unit of two packets with a packet of another PID, then the start of the next *)
Example C132_hyp : Forall wf_sp ([] ++ [ex_p1; ex_p2; ex_p3] ++ ex_p4 :: []) /\
  Forall (fun s => IsPID 256 (go_packet s) = true -> has_payload s = true) ([] ++ [ex_p1; ex_p2; ex_p3] ++ ex_p4 :: []) /\
  unit_start (IsPID 256) ex_p1 = true /\ unit_start (IsPID 256) ex_p4 = true /\ complete_units (IsPID 256) ([] ++ [ex_p1; ex_p2; ex_p3] ++ ex_p4 :: []) = [sp_payload ex_p1 ++ sp_payload ex_p2].
Proof.
  split; [exact ex_wf|]. split; [cbn [app]; repeat (apply Forall_cons; [cbn; intro; first [reflexivity | discriminate]|]); constructor|].
  split; [reflexivity|]. split; [reflexivity|]. reflexivity.
Qed.

Print Assumptions C132_joined.
