(** PropertiesStr: C88 - what the String methods print. *)
From Coq Require Import Lia Ascii String.
From Verif Require Import Base BitReader TsModel VidModel StrModel.

(** ** Specification: text, and numbers as one writes them *)
Fixpoint text (s : string) : list Z :=
  match s with EmptyString => [] | String c s => Z.of_nat (nat_of_ascii c) :: text s end.
(** [reads base l n]: [l] is a numeral of [n] in [base], most significant digit first: 0-9, then a-f *)
Definition digit_value (c : Z) : Z := if c <? 58 then c - 48 else c - 87.
Definition digit_of (base c : Z) : Prop := (48 <= c <= 57 \/ 97 <= c <= 102) /\ digit_value c < base.
Definition reads (base : Z) (l : list Z) (n : Z) : Prop :=
  l <> [] /\ Forall (digit_of base) l /\ fold_left (fun a c => base * a + digit_value c) l 0 = n.
(** the name of a coding type: I, P, B, D, or its number and a question mark *)
Definition type_name (t : Z) (l : list Z) : Prop :=
  (t = 1 /\ l = text "I") \/ (t = 2 /\ l = text "P") \/ (t = 3 /\ l = text "B") \/ (t = 4 /\ l = text "D") \/
  ((t = 0 \/ 4 < t) /\ exists num, reads 10 num t /\ l = num ++ text "?").

(** ** Numerals *)
Lemma digits_reads : forall f z acc, 0 <= z < 10 ^ Z.of_nat f -> (0 < f)%nat -> exists l, digits f z acc = l ++ acc /\ reads 10 l z.
Proof.
  induction f as [|f IH]; intros z acc Hz Hf; [lia|]. cbn [digits]. cbv zeta.
  pose proof (Z.mod_pos_bound z 10 ltac:(lia)) as Hm.
  assert (Hd : digit_of 10 (48 + z mod 10) /\ digit_value (48 + z mod 10) = z mod 10).
  { unfold digit_of, digit_value. replace (48 + z mod 10 <? 58) with true by (symmetry; apply Z.ltb_lt; lia). lia. }
  destruct (Z.eqb_spec (z / 10) 0) as [E|E].
  - exists [48 + z mod 10]. split; [reflexivity|]. split; [discriminate|]. split; [constructor; [apply Hd|constructor]|].
    cbn [fold_left]. rewrite (proj2 Hd). pose proof (Z_div_mod_eq_full z 10). lia.
  - pose proof (Z_div_mod_eq_full z 10). rewrite Nat2Z.inj_succ, Z.pow_succ_r in Hz by lia. assert (0 <= z / 10 < 10 ^ Z.of_nat f) by lia.
    destruct f as [|f]; [change (10 ^ Z.of_nat 0) with 1 in *; lia|].
    destruct (IH (z / 10) ((48 + z mod 10) :: acc) ltac:(assumption) ltac:(lia)) as (l & El & Hn & Hl & Hv).
    exists (l ++ [48 + z mod 10]). split; [rewrite El, <- app_assoc; reflexivity|]. split; [now destruct l|].
    split; [apply Forall_app; split; [exact Hl | constructor; [apply Hd|constructor]]|].
    rewrite fold_left_app, Hv. cbn [fold_left]. rewrite (proj2 Hd). lia.
Qed.
Lemma hexdigits_reads : forall f z acc, 0 <= z < 16 ^ Z.of_nat f -> (0 < f)%nat -> exists l, hexdigits f z acc = l ++ acc /\ reads 16 l z.
Proof.
  induction f as [|f IH]; intros z acc Hz Hf; [lia|]. cbn [hexdigits]. cbv zeta.
  pose proof (Z.mod_pos_bound z 16 ltac:(lia)) as Hm. set (c := if z mod 16 <? 10 then 48 + z mod 16 else 87 + z mod 16).
  assert (Hd : digit_of 16 c /\ digit_value c = z mod 16).
  { unfold digit_of, digit_value, c. destruct (Z.ltb_spec (z mod 16) 10).
    - replace (48 + z mod 16 <? 58) with true by (symmetry; apply Z.ltb_lt; lia). lia.
    - replace (87 + z mod 16 <? 58) with false by (symmetry; apply Z.ltb_ge; lia). lia. }
  destruct (Z.eqb_spec (z / 16) 0) as [E|E].
  - exists [c]. split; [reflexivity|]. split; [discriminate|]. split; [constructor; [apply Hd|constructor]|].
    cbn [fold_left]. rewrite (proj2 Hd). pose proof (Z_div_mod_eq_full z 16). lia.
  - pose proof (Z_div_mod_eq_full z 16). rewrite Nat2Z.inj_succ, Z.pow_succ_r in Hz by lia. assert (0 <= z / 16 < 16 ^ Z.of_nat f) by lia.
    destruct f as [|f]; [change (16 ^ Z.of_nat 0) with 1 in *; lia|].
    destruct (IH (z / 16) (c :: acc) ltac:(assumption) ltac:(lia)) as (l & El & Hn & Hl & Hv).
    exists (l ++ [c]). split; [rewrite El, <- app_assoc; reflexivity|]. split; [now destruct l|].
    split; [apply Forall_app; split; [exact Hl | constructor; [apply Hd|constructor]]|].
    rewrite fold_left_app, Hv. cbn [fold_left]. rewrite (proj2 Hd). lia.
Qed.
Lemma fmt_d_reads z : 0 <= z < 2 ^ 32 -> reads 10 (fmt_d z) z.
Proof.
  intros H. unfold fmt_d. replace (z <? 0) with false by (symmetry; apply Z.ltb_ge; lia).
  destruct (digits_reads 10 z []) as (l & -> & R); [change (10 ^ Z.of_nat 10) with 10000000000; change (2 ^ 32) with 4294967296 in H; lia | lia |].
  now rewrite app_nil_r.
Qed.
Lemma fmt_1x_reads z : 0 <= z < 2 ^ 32 -> reads 16 (fmt_1x z) z.
Proof.
  intros H. unfold fmt_1x. destruct (hexdigits_reads 8 z []) as (l & -> & R); [exact H | lia |]. now rewrite app_nil_r.
Qed.
Lemma fmt_02x_reads z : 0 <= z < 2 ^ 32 -> reads 16 (fmt_02x z) z /\ (2 <= List.length (fmt_02x z))%nat.
Proof.
  intros H. destruct (fmt_1x_reads z H) as (Hn & Hl & Hv). unfold fmt_02x. cbv zeta. destruct (Nat.ltb_spec (List.length (fmt_1x z)) 2) as [L|L].
  - split; [split; [discriminate|split]|].
    + constructor; [unfold digit_of, digit_value; cbn; lia | exact Hl].
    + exact Hv.
    + destruct (fmt_1x z); cbn [List.length] in *; [congruence | lia].
  - split; [split; [exact Hn|split; [exact Hl | exact Hv] ] | exact L].
Qed.

(** ** The strings *)
Definition u32 (z : Z) : Prop := 0 <= z < 2 ^ 32.

(** PictureHeader.String: "[", the name of the type, the temporal reference in decimal, "]" *)
Theorem C88_picture : forall ph, u32 (ph_type ph) -> u32 (ph_tr ph) -> exists name num,
  picture_string ph = text "[" ++ name ++ num ++ text "]" /\ type_name (ph_type ph) name /\ reads 10 num (ph_tr ph).
Proof.
  intros ph Ht Hr. exists (type_string (ph_type ph)), (fmt_d (ph_tr ph)). split; [reflexivity|]. split; [|now apply fmt_d_reads].
  unfold type_string, type_name, u32 in *. destruct (Z.eqb_spec (ph_type ph) 1); [left; auto|]. destruct (Z.eqb_spec (ph_type ph) 2); [right; left; auto|].
  destruct (Z.eqb_spec (ph_type ph) 3); [do 2 right; left; auto|]. destruct (Z.eqb_spec (ph_type ph) 4); [do 3 right; left; auto|].
  do 4 right. split; [lia|]. exists (fmt_d (ph_type ph)). split; [now apply fmt_d_reads | reflexivity].
Qed.
(** Packet.String: PID in hexadecimal of two digits or more, and the counter *)
Theorem C88_packet : forall p, u32 (pk_pid p) -> u32 (pk_cc p) -> exists pid cc,
  packet_string p = text "{ PID: 0x" ++ pid ++ text ", Counter: " ++ cc ++ text " }" /\
  reads 16 pid (pk_pid p) /\ (2 <= List.length pid)%nat /\ reads 16 cc (pk_cc p).
Proof.
  intros p Hp Hc. exists (fmt_02x (pk_pid p)), (fmt_1x (pk_cc p)). split; [reflexivity|].
  destruct (fmt_02x_reads _ Hp). split; [assumption|]. split; [assumption|]. now apply fmt_1x_reads.
Qed.
(** ChromaFormat.String *)
Theorem C88_chroma : chroma_string 1 = text "4:2:0" /\ chroma_string 2 = text "4:2:2" /\ chroma_string 3 = text "4:4:4" /\
  (forall c, c <> 1 -> c <> 2 -> c <> 3 -> chroma_string c = text "[Invalid]").
Proof.
  repeat split. intros c H1 H2 H3. unfold chroma_string. rewrite (proj2 (Z.eqb_neq _ _) H1), (proj2 (Z.eqb_neq _ _) H2), (proj2 (Z.eqb_neq _ _) H3). reflexivity.
Qed.

(** ** Different values print differently *)
Lemma span b c d x y : ~ digit_of b c -> ~ digit_of b d -> forall l m, Forall (digit_of b) l -> Forall (digit_of b) m ->
  l ++ c :: x = m ++ d :: y -> l = m /\ c = d /\ x = y.
Proof.
  intros Hc Hd. induction l as [|e l IH]; intros [|f m] Hl Hm E; cbn [app] in E.
  - now injection E as -> ->.
  - injection E as -> _. now inversion Hm.
  - injection E as -> _. now inversion Hl.
  - injection E as -> E. inversion Hl; inversion Hm; subst. destruct (IH m) as (-> & -> & ->); auto.
Qed.
Lemma reads_fun b l m n : reads b l m -> reads b l n -> m = n.
Proof. intros (_ & _ & H) (_ & _ & K). congruence. Qed.
Ltac nodigit := unfold digit_of, digit_value; cbn; lia.
Lemma named t l u m x y : type_name t l -> type_name u m -> Forall (digit_of 10) x -> Forall (digit_of 10) y ->
  l ++ x ++ text "]" = m ++ y ++ text "]" -> t = u /\ x = y.
Proof.
  intros T U X Y E.
  assert (S : x ++ text "]" = y ++ text "]" -> x = y) by (intros H; now apply app_inv_tail in H).
  assert (A : forall c num z, ~ digit_of 10 c -> reads 10 num z -> forall r s, c :: r = num ++ s -> False).
  { intros c [|d num] z Hc (Hn & Hf & _) r s H; [congruence|]. injection H as -> _. now inversion Hf. }
  destruct T as [(-> & ->)|[(-> & ->)|[(-> & ->)|[(-> & ->)|(_ & n & N & ->)]]]];
  destruct U as [(-> & ->)|[(-> & ->)|[(-> & ->)|[(-> & ->)|(_ & o & O & ->)]]]];
  cbn [text app] in E; try (injection E as E; now auto); try discriminate E;
  try (exfalso; rewrite <- app_assoc in E; first [eapply A; [| eassumption | exact E] | symmetry in E; eapply A; [| eassumption | exact E]]; nodigit).
  rewrite <- !app_assoc in E. cbn [text app] in E.
  apply span with (b := 10) in E; [|nodigit|nodigit|apply N|apply O]. destruct E as (-> & _ & E). split; [eapply reads_fun; eassumption | now apply S].
Qed.
Theorem C88_picture_injective : forall ph ph', u32 (ph_type ph) -> u32 (ph_tr ph) -> u32 (ph_type ph') -> u32 (ph_tr ph') ->
  picture_string ph = picture_string ph' -> ph_type ph = ph_type ph' /\ ph_tr ph = ph_tr ph'.
Proof.
  intros ph ph' H1 H2 H3 H4 E. destruct (C88_picture ph H1 H2) as (l & x & E1 & T & X). destruct (C88_picture ph' H3 H4) as (m & y & E2 & U & Y).
  rewrite E1, E2 in E. apply app_inv_head in E. destruct (named _ _ _ _ x y T U (proj1 (proj2 X)) (proj1 (proj2 Y)) E) as (-> & <-).
  split; [reflexivity | eapply reads_fun; eassumption].
Qed.
Theorem C88_packet_injective : forall p q, u32 (pk_pid p) -> u32 (pk_cc p) -> u32 (pk_pid q) -> u32 (pk_cc q) ->
  packet_string p = packet_string q -> pk_pid p = pk_pid q /\ pk_cc p = pk_cc q.
Proof.
  intros p q H1 H2 H3 H4 E. destruct (C88_packet p H1 H2) as (l & x & E1 & L & _ & X). destruct (C88_packet q H3 H4) as (m & y & E2 & M & _ & Y).
  rewrite E1, E2 in E. apply app_inv_head in E. cbn [text app] in E.
  apply span with (b := 16) in E; [|nodigit|nodigit|apply L|apply M]. destruct E as (-> & _ & E). split; [eapply reads_fun; eassumption|].
  injection E as E. apply span with (b := 16) in E; [|nodigit|nodigit|apply X|apply Y]. destruct E as (-> & _). eapply reads_fun; eassumption.
Qed.

Example C88_hyp : picture_string (mkPH 1023 3 0 0 0 0 0 []) = text "[B1023]" /\ picture_string (mkPH 7 5 0 0 0 0 0 []) = text "[5?7]" /\
  packet_string (mkPk false false false 8191 0 1 15 None [] 0) = text "{ PID: 0x1fff, Counter: f }" /\
  packet_string (mkPk false false false 0 0 1 0 None [] 0) = text "{ PID: 0x00, Counter: 0 }".
Proof. repeat split; reflexivity. Qed.

Print Assumptions C88_picture.
Print Assumptions C88_packet.
Print Assumptions C88_chroma.
Print Assumptions C88_picture_injective.
Print Assumptions C88_packet_injective.
