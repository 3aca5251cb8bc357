(** SpecAcceptTs: adaptation fields as they are read from any bytes.  Written as an encoder beside that of SpecTs, with one rule
    more: a part that is announced by its flag and does not fit into the bytes that are left is absent. *)
From Verif Require Import Base SpecTs.

(** Is a part of [need] bytes there, with [left] bytes left? *)
Definition fits (flag : bool) (need left : Z) : bool := flag && (need <=? left).

(** ** Extension: the last of the three time stamp markers (of the table in 2.4.3.4) and what the length leaves are not there *)
Record rext : Type := mkRext {
  re_length : Z; re_f1 : bool; re_f2 : bool; re_f3 : bool; re_reserved : Z;
  re_ltw : option (bool * Z); re_pwr : option (Z * Z);
  re_seamless : option (Z * (Z * bool * Z * bool * Z)) }.
Definition enc_rext (x : rext) : list bool :=
  enc 8 (re_length x) ++
  (if 1 <=? re_length x then bit (re_f1 x) ++ bit (re_f2 x) ++ bit (re_f3 x) ++ enc 5 (re_reserved x) else []) ++
  (match re_ltw x with Some (v, o) => bit v ++ enc 15 o | None => [] end) ++
  (match re_pwr x with Some (r, v) => enc 2 r ++ enc 22 v | None => [] end) ++
  (match re_seamless x with Some (t, (a, m, b, n, c)) => enc 4 t ++ enc 3 a ++ bit m ++ enc 15 b ++ bit n ++ enc 15 c | None => [] end).
(** Bytes left after the flags, the first part, the second part *)
Definition re_left1 (x : rext) : Z := if 1 <=? re_length x then re_length x - 1 else 0.
Definition re_left2 (x : rext) : Z := re_left1 x - olen (re_ltw x) 2.
Definition re_left3 (x : rext) : Z := re_left2 x - olen (re_pwr x) 3.
Definition wf_rext (x : rext) : Prop :=
  0 <= re_length x < 256 /\ (re_length x = 0 -> re_f1 x = false /\ re_f2 x = false /\ re_f3 x = false) /\ 0 <= re_reserved x < 2 ^ 5 /\
  is_some (re_ltw x) = fits (re_f1 x) 2 (re_left1 x) /\
  is_some (re_pwr x) = fits (re_f2 x) 3 (re_left2 x) /\
  is_some (re_seamless x) = fits (re_f3 x) 5 (re_left3 x) /\
  match re_ltw x with Some (_, o) => 0 <= o < 2 ^ 15 | None => True end /\
  match re_pwr x with Some (r, v) => 0 <= r < 2 ^ 2 /\ 0 <= v < 2 ^ 22 | None => True end /\
  match re_seamless x with Some (t, (a, m, b, n, c)) => 0 <= t < 2 ^ 4 /\ 0 <= a < 2 ^ 3 /\ 0 <= b < 2 ^ 15 /\ 0 <= c < 2 ^ 15 | None => True end.

(** ** Field *)
Record rfield : Type := mkRF {
  rf_length : Z; rf_disc : bool; rf_random : bool; rf_esprio : bool;
  rf_f1 : bool; rf_f2 : bool; rf_f3 : bool; rf_f4 : bool; rf_f5 : bool;
  rf_pcr : option pcr; rf_opcr : option pcr; rf_splice : option Z; rf_private : option (list Z); rf_ext : option rext;
  rf_stuffing : list Z }.
Definition enc_rfield (f : rfield) : list bool :=
  enc 8 (rf_length f) ++
  (if 1 <=? rf_length f then
     bit (rf_disc f) ++ bit (rf_random f) ++ bit (rf_esprio f) ++ bit (rf_f1 f) ++ bit (rf_f2 f) ++ bit (rf_f3 f) ++ bit (rf_f4 f) ++ bit (rf_f5 f)
   else []) ++
  (match rf_pcr f with Some p => enc_pcr p | None => [] end) ++
  (match rf_opcr f with Some p => enc_pcr p | None => [] end) ++
  (match rf_splice f with Some v => enc 8 v | None => [] end) ++
  (match rf_private f with Some d => enc 8 (blen d) ++ bb d | None => [] end) ++
  (match rf_ext f with Some x => enc_rext x | None => [] end) ++
  bb (rf_stuffing f).
Definition rext_len (o : option rext) : Z := match o with Some x => 1 + re_length x | None => 0 end.
Definition rf_left1 (f : rfield) : Z := if 1 <=? rf_length f then rf_length f - 1 else 0.
Definition rf_left2 (f : rfield) : Z := rf_left1 f - olen (rf_pcr f) 6.
Definition rf_left3 (f : rfield) : Z := rf_left2 f - olen (rf_opcr f) 6.
Definition rf_left4 (f : rfield) : Z := rf_left3 f - olen (rf_splice f) 1.
Definition rf_left5 (f : rfield) : Z := rf_left4 f - priv_len (rf_private f).
Definition wf_rfield (f : rfield) : Prop :=
  0 <= rf_length f < 256 /\
  (rf_length f = 0 -> rf_disc f = false /\ rf_random f = false /\ rf_esprio f = false /\ rf_f1 f = false /\ rf_f2 f = false /\ rf_f3 f = false /\ rf_f4 f = false /\ rf_f5 f = false) /\
  is_some (rf_pcr f) = fits (rf_f1 f) 6 (rf_left1 f) /\
  is_some (rf_opcr f) = fits (rf_f2 f) 6 (rf_left2 f) /\
  is_some (rf_splice f) = fits (rf_f3 f) 1 (rf_left3 f) /\
  is_some (rf_private f) = fits (rf_f4 f) 1 (rf_left4 f) /\
  is_some (rf_ext f) = fits (rf_f5 f) 2 (rf_left5 f) /\
  match rf_pcr f with Some p => wf_pcr p | None => True end /\
  match rf_opcr f with Some p => wf_pcr p | None => True end /\
  match rf_splice f with Some v => 0 <= v < 256 | None => True end /\
  match rf_private f with Some d => bytes d /\ blen d < 256 | None => True end /\
  match rf_ext f with Some x => wf_rext x | None => True end /\
  bytes (rf_stuffing f) /\ blen (rf_stuffing f) = rf_left5 f - rext_len (rf_ext f).

(** Every part that is announced fits, and the extension has neither a seamless splice nor reserved bytes. *)
Definition regular (f : rfield) : Prop :=
  is_some (rf_pcr f) = rf_f1 f /\ is_some (rf_opcr f) = rf_f2 f /\ is_some (rf_splice f) = rf_f3 f /\ is_some (rf_private f) = rf_f4 f /\ is_some (rf_ext f) = rf_f5 f /\
  match rf_ext f with
  | Some x => 1 <= re_length x /\ is_some (re_ltw x) = re_f1 x /\ is_some (re_pwr x) = re_f2 x /\ re_f3 x = false /\ re_left3 x = 0
  | None => True
  end.
