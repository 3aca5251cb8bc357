(** SpecAccept: forms of PES and program stream headers that the syntax tables of ISO/IEC 13818-1 do not allow and that are
    read all the same; written as encoders beside those of SpecPes and SpecPs. *)
From Verif Require Import Base SpecPes SpecPs.

(** A PES header without time stamps and with the PTS_DTS_flags '01', which table 2-17 (2.4.3.7) forbids *)
Definition enc_head_01 (h : shead) : list bool :=
  enc 2 2 ++ enc 2 (sh_scrambling h) ++ bit (sh_priority h) ++ bit (sh_alignment h) ++
  bit (sh_copyright h) ++ bit (sh_original h) ++
  enc 2 1 ++
  bit false ++ bit false ++ bit false ++ bit false ++ bit false ++ bit (present (sh_ext h)) ++
  enc 8 (data_len h) ++
  (match sh_ext h with Some x => enc_xt x | None => [] end) ++
  bb (repeat 255 (sh_stuffing h)).

(** A system header (2.5.3.5) with any number in header_length *)
Definition enc_sys_len (length : Z) (s : ssys) : list bool :=
  enc 32 443 ++ enc 16 length ++ bit true ++ enc 22 (sm_rate s) ++ bit true ++
  enc 6 (sm_audio s) ++ bit (sm_fixed s) ++ bit (sm_csps s) ++ bit (sm_alock s) ++ bit (sm_vlock s) ++
  bit true ++ enc 5 (sm_video s) ++ bit (sm_restrict s) ++ enc 7 (sm_reserved s) ++
  flat_map enc_sstream (sm_streams s).
(** The parts of a pack header (2.5.3.3) before the system header *)
Definition enc_pack_start (p : spack) : list bool :=
  enc 32 442 ++ enc 2 1 ++
  enc 3 (sk_base p / 2 ^ 30) ++ bit true ++ enc 15 (sk_base p / 2 ^ 15) ++ bit true ++
  enc 15 (sk_base p) ++ bit true ++ enc 9 (sk_ext p) ++ bit true ++
  enc 22 (sk_rate p) ++ bit true ++ bit true ++ enc 5 (sk_reserved p) ++
  enc 3 (blen (sk_stuffing p)) ++ bb (sk_stuffing p).
