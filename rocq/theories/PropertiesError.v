(** PropertiesError: C105 - an error of Next says what is wrong with the stream, and where. *)
From Coq Require Import Lia.
From Verif Require Import Base BitReader After VidModel SpecVid VidProofs VidStream MbModel SpecSyntax SpecError ErrorProofs PropertiesRefuse.

(** Whatever the stream and whatever happened before: when Next returns an error, it is the error of a reader that has come
    to the end of its source, or else the last bits that were read and the ones that follow are what the error stands for. *)
Theorem C105_told : forall v r e v' r', rlater r = [] -> next (v, r) = (Err e, (v', r')) ->
  exists c, rbits r = c ++ rbits r' /\ (ended r e (rbits r') \/ exists c1 c2, c = c1 ++ c2 /\ tells e c2 (rbits r')).
Proof.
  intros v r e v' r' Hr H. pose proof (hon_next (v, r) Hr) as N. rewrite H in N. cbn [snd] in N. destruct N as (c & A & N). exists c. split; [exact (after_bits _ _ _ A) | exact N].
Qed.

(** So no other errors are returned than these and those of the source, *)
Theorem C105_kinds : forall v r e v' r', rlater r = [] -> next (v, r) = (Err e, (v', r')) ->
  In e [EOS; ErrUnsupported; ErrMissingMarkerBit; ErrInvalidReservedBits; ErrUnexpectedNonZeroByte; ErrMissingHuffmanValue; ErrUnexpectedStartCode; ErrUnexpectedExtensionID] \/
  (rbits r' = [] /\ e = rfin r) \/ exists n k, (0 < k < n)%nat /\ (n <= 32)%nat /\ length (rbits r') = k /\ e = rshort r n k.
Proof.
  intros v r e v' r' Hr H. destruct (C105_told v r e v' r' Hr H) as (c & Q & [ [E|(n & L & N & E)]|(c1 & c2 & _ & T)]).
  - right; left; exact E.
  - right; right. exists n, (length (rbits r')). auto.
  - left. destruct T; cbn [In]; tauto.
Qed.
(** the end of the sequence is reported only where the stream says so, *)
Theorem C105_eos : forall v r v' r', rlater r = [] -> rfin r <> EOS -> (forall n k, rshort r n k <> EOS) -> next (v, r) = (Err EOS, (v', r')) ->
  exists c, rbits r = c ++ code sequence_end_code ++ rbits r'.
Proof.
  intros v r v' r' Hr F S H. destruct (C105_told v r EOS v' r' Hr H) as (c & Q & [ [(_ & E)|(n & _ & _ & E)]|(c1 & c2 & -> & T)]); [congruence | exfalso; now apply (S n (length (rbits r'))) |].
  exists c1. inversion T; subst. rewrite Q, <- app_assoc. reflexivity.
Qed.
(** and a stream is refused as MPEG-1 only after a sequence header that another start code than that of an extension follows. *)
Theorem C105_mpeg1 : forall v r v' r', rlater r = [] -> rfin r <> ErrUnsupported -> (forall n k, rshort r n k <> ErrUnsupported) -> next (v, r) = (Err ErrUnsupported, (v', r')) ->
  exists c s g w t, rbits r = c ++ enc_seq s ++ g ++ enc 32 w ++ t /\ wf_seq s /\ gap g /\ 0 <= w < 2 ^ 32 /\ w <> 256 + extension_code /\ rbits r' = enc 32 w ++ t.
Proof.
  intros v r v' r' Hr F S H. destruct (C105_told v r ErrUnsupported v' r' Hr H) as (c & Q & [ [(_ & E)|(n & _ & _ & E)]|(c1 & c2 & -> & T)]); [congruence | exfalso; now apply (S n (length (rbits r'))) |].
  inversion T as [|s g l W G O| | | | | | | | | | | | | | | ]; subst. destruct O as (w & t & E & B & O). exists c1, s, g, w, t. rewrite Q, E, <- !app_assoc. split; [reflexivity|]. split; [exact W|]. split; [exact G|]. split; [exact B|]. split; [apply O; now left | reflexivity].
Qed.

(** Streams that begin with a group, with a byte that is not 0, whose sequence header has no marker, MPEG-1, whose first
    extension is another, with an extension that may not stand there, that end in the header, and where the sequence ends *)
Definition xe_reader (l : list Z) : reader := mkR (bb l) EEOF [] (fun _ _ => EUnexpectedEOF).
Definition xe_header : list Z := [0; 0; 1; 179; 22; 0; 240; 196; 2; 206; 224; 164].
Definition xe_extension : list Z := [0; 0; 1; 181; 20; 138; 0; 1; 0; 0].
Example C105_hyp :
  fst (next (new_vidseq, xe_reader [0; 0; 1; 184; 0; 8; 0; 64])) = Err ErrUnexpectedStartCode /\
  fst (next (new_vidseq, xe_reader [0; 5; 0; 0; 1; 179])) = Err ErrUnexpectedNonZeroByte /\
  fst (next (new_vidseq, xe_reader [0; 0; 1; 179; 22; 0; 240; 196; 2; 206; 192; 164; 0; 0; 1; 181])) = Err ErrMissingMarkerBit /\
  fst (next (new_vidseq, xe_reader ex_mpeg1)) = Err ErrUnsupported /\
  fst (next (new_vidseq, xe_reader (xe_header ++ [0; 0; 1; 181; 32; 0; 0; 0]))) = Err ErrUnexpectedExtensionID /\
  fst (next (new_vidseq, xe_reader (xe_header ++ xe_extension ++ [0; 0; 1; 181; 48; 0; 0; 0]))) = Err ErrUnexpectedExtensionID /\
  fst (next (new_vidseq, xe_reader (xe_header ++ xe_extension ++ [0; 0; 1; 1; 48; 0; 0; 0]))) = Err ErrUnexpectedStartCode /\
  fst (next (new_vidseq, xe_reader [0; 0; 1; 179; 22])) = Err EUnexpectedEOF /\
  fst (next (new_vidseq, xe_reader [0; 0; 1; 179])) = Err EEOF /\
  fst (next (fst (snd (next (new_vidseq, xe_reader ex_mpeg1))), xe_reader [0; 0; 1; 183])) = Err EOS.
Proof. repeat split; lazy; reflexivity. Qed.
Print Assumptions C105_told.
Print Assumptions C105_kinds.
Print Assumptions C105_eos.
Print Assumptions C105_mpeg1.
