(** Conformance: the tests of /repo run on the model, with the data of the tests.

    These are tests of the model, not of the properties: they compare what the model says with what the code is
    known to do, on the inputs of ts/*_test.go, pes/packet_test.go and video/sequence_header_test.go.  The last
    section decodes the real video in pes/data_test.go.  The code is not run: the expectations are those written
    in the tests. *)
From Coq Require Import String Ascii.
From Verif Require Import Base BitReader TsModel TsReaders Conc ConcProofs PropertiesTsConc PesModel VidModel MbModel SpecMotion.
Open Scope Z_scope.

(** * The data *)

(** encoding/base64, StdEncoding: the value of a character; line ends and padding have none *)
Definition b64_char (a : ascii) : option Z :=
  let n := Z.of_nat (nat_of_ascii a) in
  if (65 <=? n) && (n <=? 90) then Some (n - 65)
  else if (97 <=? n) && (n <=? 122) then Some (n - 71)
  else if (48 <=? n) && (n <=? 57) then Some (n + 4)
  else if n =? 43 then Some 62 else if n =? 47 then Some 63 else None.
Fixpoint b64_bits (s : string) : list bool :=
  match s with
  | EmptyString => []
  | String a t => match b64_char a with Some v => enc 6 v | None => [] end ++ b64_bits t
  end.
Definition b64 (s : string) : list Z :=
  let l := b64_bits s in get_bytes (Nat.div (length l) 8) l.

(** ts/data_test.go:8-14 *)
Definition nullPacket : list Z := b64 ("Rx//EP////////////////////////////////////////////////////////////////////////" ++
  "//////////////////////////////////////////////////////////////////////////////" ++
  "//////////////////////////////////////////////////////////////////////////////" ++
  "////////////////8=")%string.

(** ts/data_test.go:16-22 *)
Definition dataPacket : list Z := b64 ("RwAhHbpBrFk0EitqYe9/6MqqfLuk5EU1IyVVIirpPhNJ4tZ4f3dPGu7p9dMqmCESJEGXqehE8V5F6o" ++
  "oc96aqnt7qp7s54l3NdPZybreCc2qAAAABG1KLZpJLB0n71IVnDQYYadazHYM5BEugQ3OhKQaAk11M" ++
  "PftXzvVe6hnhlLnuLk3T4C42RoJDfQ1sBKCkssDBMTyoAZgB98AP1kwEn/kebAM76qG1ks0BoCYslh" ++
  "kx/0AnAMWIWJQFSxM=")%string.

(** ts/data_test.go:24-42 *)
Definition shortTsStream : list Z := b64 ("RwAhHbpBrFk0EitqYe9/6MqqfLuk5EU1IyVVIirpPhNJ4tZ4f3dPGu7p9dMqmCESJEGXqehE8V5F6o" ++
  "oc96aqnt7qp7s54l3NdPZybreCc2qAAAABG1KLZpJLB0n71IVnDQYYadazHYM5BEugQ3OhKQaAk11M" ++
  "PftXzvVe6hnhlLnuLk3T4C42RoJDfQ1sBKCkssDBMTyoAZgB98AP1kwEn/kebAM76qG1ks0BoCYslh" ++
  "kx/0AnAMWIWJQFSxNHADEW6ZoOyz5dOtCdXXTSgtpos7RldzE9UTUqiH4B3j6g04Op0FqEvSk+TZs1" ++
  "dxYZnqMoVPwNqhU2N089CpwoH69ddYN8q66F1qnlzycrwacHU6C9CI7lnQAAAAEHMqoqcddUS8uTZ9" ++
  "OmBwIm7mp0uFY13dd4AHlU6MNpqoJ2oRCaFT2AU4eTnkYsaAkw3Ekd1K9JzodROjPbE+hNMsTRSYWX" ++
  "+52HbaSUgebBqDgLq+MiGGFsWxRQ8b8KgEcAIR7KHQAlAdAJklE3JDAIWy6JawcnskQUA2YmFF8nge" ++
  "iEAxJmJgDsYvDx0GBixhTkaJpacQiYPA5tWpoygCgBlwC0mE1sHb+K3GIv9Z4m62olMGhEkh8HX+Rf" ++
  "6pJaX7U2Oz5YxUJsk1j6GyximTdgoUyhkAvh9Er+B4+4Td/x60Cz0drsCgWPUllwQGuB6gwmIHh1oA" ++
  "oGOSBo5JHol0CAY8XIN8tseQIy/xLJAHPt5JIYDV2AwQiEgb7oRwBBGyuuVQn6Y2YTs1YEJplyutvS" ++
  "j89idGErND6OkQPBFQQCqCQWRA0EwAAAAQqCuE/NDrpdVTOWVpluyOW0ZSZSRwnZpz3qFPSOpZqqtF" ++
  "dIVMdMdIUJXouSg9BQNQKg0g4NQa2QYMAAAAELgrvSql10mXTZbSdbKUpWlbCVk2jAOTLIJtJEBVV1" ++
  "cJ1JekirSZUjYamPTKug8JoNCDabH0qAAAABDGK4TdImaTCY1LronaNLUtk2mUkyTJlHACEfmfHOgP" ++
  "USv//fknz0S//G20Wimw2fDB8/eY2RqaBQ8lIf9MOm4ySiiYwKEQ9PPjDbklOUWwwP9E2gQXrzx3y9" ++
  "xOi+tBF9m0NlDyaGfsB4UdQHiK//UF3Q8DVDWwEDaRVbDZ1n3YrNlvePms6NoakOtn3TRzbokSNIp6" ++
  "kSKkXT0IkSJF03cmI91hhU+dNXNkIkSIq6ehEiKirp/RUiKp4uirp/qkSKhyZ/oqRIqf+f0SKqn9Ei" ++
  "RIrQCA==")%string.

(** ts/data_test.go:44-49 *)
Definition adaptationFieldPacket : list Z := b64 ("RwAhNmcA//////////////////////////////////////////////////////////////////////" ++
  "//////////////////////////////////////////////////////////////////TcHR1Jo5rLVT" ++
  "2d3T66TlzUt9VUnJmpPqqqT4s0fP6pMnRS5rL6qqo68/KhJR++kZ+gt/CU0MqqSew09vQ1LDlScGSg" ++
  "z8qwqC7u62hjn3AAA=")%string.

(** pes/data_test.go:9-45 *)
Definition packetWithExtensionFlagData : list Z := b64 ("AAAB4AfsgMENMQADEHcRAAH5AR5hAgAAAbMtAeAkDqYjgRARERISEhMTExMUFBQUFBUVFRUVFRYWFh" ++
  "YWFhYXFxcXFxcXFxgYGBkYGBgZGhoaGhkbGxsbGxwcHBweHh4fHyEAAAG1FIIAAQAAAAABtSUFBQUL" ++
  "Qg8AAAABsgCHcRsBAW9yGwEBb4EAJWVuY29kZWQgYnkgVE1QR0VuYyAodmVyLiAyLjAxLjMwLjExNi" ++
  "kAAAG4AAgAQAAAAQAACvAAAAABtY//8xwAAAABAQt8PaNGjDDaNGjRhhtGjRoww2jRiLme3uK7juXb" ++
  "I/jvJw/Nmcu3zylSjYwYYbRo0aMMNo0aNGGG0aNGjDDaNGjRhhtGjRoww2jRo0YYbRo0aMMNo0aNGG" ++
  "G0aNGjDDaS3dyTKk3Uq06pI0aNGGG0aNGjDDaNGjRhhtGjRoww2jRo0YYbRo0aMMNo0aNGGG0aNGjD" ++
  "DaNGjRhhtGjRoww2jRo0xfzS0n6SSLi2jbaf4RRrDDaNGjRhhtGjRoww2jRo0YYbRpmS3bbJBtswqW" ++
  "1B9LaNGGG0aNGjDDaNGjRhhtGjRoww2jRo0YYbRo0aMMNo0aNGGG0aNGjDDaNGjRhhtGjRoww2jRo0" ++
  "YYbRo0aMMNo0aNGGG0aNGjDDaMX9iPbm3kR54HPBD/6nLndgRSd3uB2maVR8YNMXdyJadJVsiW1Btr" ++
  "DDaNDZphlls2ZZtOstlLrRoww2jRo0YYbRo0aMMMAAAAECC3w9o0aMMNo0aNGGG0aNGjDDaNGjRhht" ++
  "GjRoww2cAYX/gCgAVET4oA7AHonOOMEgD33slq+78yjGRo0YYbRo0aMMNo0aNGGG0aNKXJb6WLWmyz" ++
  "ZZfCWWeFlYYbRo07ddc/LPF3NmULWStGGG0aNGjDDaNGjRhhtGjRoww2jRo0YYbRo0aMMNo0aNGGG0" ++
  "aNGjDDaNGjRhhtGjRoww2jRo0YYbRo0aMMNo0aNGGG0aM3f3+PZ5F4F8cCzJ54L9iLwCEAT77wr+jQ" ++
  "Cjcvbhmh+VC2VhhtGjRp27Rftx3y6DrvD+M1+Q8mW5LWGG0aNLEssoXJVng0YYbRo0aMMNo0aNGGG0" ++
  "aNGjDDaNGjRhhtGjRiRhHAj4BCAG4dIVMAz3z3zo0Anful2+jDDYNGPv1vuRBQkW6Bu8P4m7IEVgww" ++
  "2jRo0YYbRo0aMMNo0aNGGG0aNGjDDaNGjRhhtGjRoww2jRo0YYbRo0aMMNo0aNGGG0aNGjDDaNGjRh" ++
  "htGjRoww2jRo0YYbRo0aMMMAAAABAwt8PaNGjDDaNGjRhhtGjRoww2jRo0YYbRo0aMMNo0aNGGG0ab" ++
  "lWyWUMthcsLHVozADj7ewr4+v3646wZgn5+SLJ79838nToVJxgw5hhsrRo0YYbRiI6cAUiQ6AAp5/H" ++
  "AfQAUYXSglg0YYbRo0aMMNo0aNGGG0aNGjDDaNGjRhhtGjRoww2jRo0YYbRo0aMMNo0aNGGG0aNGjD" ++
  "DaNGjRhhtGjRoww2jRo0YYbRo0aMMNo0aNGGG0aCuuBfvx0L7dkl1/PHD+cx73ZhtpmWxbIW0aMMNp" ++
  "mTHZmSQ6SSSSSSIdJGjRoww2jRo0YYbRo0aMMNo0aNGGG0aNGjDDaNGjRhhtGmvd25145Ni3DNsKps" ++
  "8WjRg8Yw2jRo0YYbRo0aMMNo0aNNyzSrAwvLLBp8KYYbRo0aMMNo0aNGGG0CmjRoww2jRpuWWyIEW4" ++
  "XBo6xoww2jRo0YYbRo0aMMNo0aNGGG0aNGjDDaNGjRhhtFmIsVIqUJaNGjDDaNGjRhhgAAABBAt8Pa" ++
  "NGjDDaNGjRhhtGjRoww2jRo0YYbRo0aMMNo0aNGGG0aNGjDDaNGjRhhtGl2Q2WKGywqoFU5o0YYbRo" ++
  "0aMMNo0aNGGG0aNGjDDaNGjRhhtGjRoww2jRo0YYbRo0aMMNo0aNGGG0NgedUGwo+SjZ4NGjRhhtGj" ++
  "Roww2jRox+TPf2LtDCqwNYbCy2LZA1GvBA+8AFHIAYgBdACt9GzJdwZWcAc/WAgfmk7jieEbrEUAd9" ++
  "AgffgD3oE3/pp+lIGl+DMXFObUggenfb4AEv25z2Jy0uowBA9YI3wAEwA5BC/4JypJG9MANAQP1xAI" ++
  "H64Aai2zAgAYgDkEEEb+iRYll7ewStavcSERG3mgQPfABt7ZrrEtrICB8v/hAAuAHbrYtWordkEADU" ++
  "AegAh77ADgEsAVswIAGwAvADYAdEQE0AVn10y77bYwQPdQBQRhIA89xH/451LTFbCCB+mAKPqAFgIH" ++
  "63t7gDb56p8kdD5sLb0oAYCfYED6j/gD4Ez/n3bogBiCB+QJBABHACD3BD/5Y+JaMY+a28K0brggfJ" ++
  "/PAIAK4A5wiEV8DUQqWlNywBeRt+n1yzhYdsoSz6fLGXeE7mI2Ro0aM2TaNGjRhhtGjRoww2jRo0YY" ++
  "bRo0aMMNo0aNGGG0oDJo0kN2SnlQq2Sl0ctaMKw2jRo0YYbRo0aMMNo0aNGGGx+vtyRf8KE/PWAPd4" ++
  "1wfIwux8wyhiUD5azADT+fAA3AFf0+3/IvEG9ivjsXJzuKpzKwtA2dGG0aNB9Aok1oxQHzDaNGPfl7" ++
  "CeubxoD3PJ+VNPGSsGDqpJYbRo0aMMNj89aRvqKEitC+HPlyktg0aMHH1htGjRoww2jRpJLS76S2QY" ++
  "fSmjDDaNGjRhhtGjRoww2jRo0YYYAAABBQt8PaNGjDDaNGjRhhtGjRoww2jR/////w==")%string.

(** video/sequence_header_test.go:11-13 *)
Definition sequenceHeaderData : list Z := b64 ("AAABs1AC0Ddt3S9BEBEREhISExMTExQUFBQUFRUVFRUVFhYWFhYWF" ++
  "hcXFxcXFxcXGBgYGBgYGBkZGRkZGRoaGhoaGxsbGxwcHB0dHg==")%string.

(** The bit reader over a byte stream that ends with io.EOF. *)
Definition src (l : list Z) : reader := mkR (bb l) EEOF [] (fun _ _ => EUnexpectedEOF).

(** * ts/packet_test.go *)

(** 8-17 TestPacketParsing *)
Example TestPacketParsing :
  match new_packet (src nullPacket) with (Ok _, (p, _)) => pk_pid p =? 8191 | _ => false end = true.
Proof. lazy. reflexivity. Qed.
(** 19-27 TestEOFAfterPacket *)
Example TestEOFAfterPacket :
  match new_packet (src nullPacket) with
  | (Ok _, (_, r)) => match new_packet r with (Err EEOF, _) => true | _ => false end
  | _ => false
  end = true.
Proof. lazy. reflexivity. Qed.
(** 29-35 TestIncompletePacket *)
Example TestIncompletePacket : fst (new_packet (src (firstn 4 nullPacket))) = Err EUnexpectedEOF.
Proof. lazy. reflexivity. Qed.

(** * ts/adaptation_field_test.go:7-26 TestAdaptationField *)
Example TestAdaptationField :
  match new_packet (src adaptationFieldPacket) with
  | (Ok _, (p, _)) =>
      (pk_afc p =? FieldThenPayload) && match pk_af p with Some _ => true | None => false end &&
      (Z.of_nat (length (pk_payload p)) =? 80)
  | _ => false
  end = true.
Proof. lazy. reflexivity. Qed.

(** * ts/payload_reader_test.go *)

(** io.ReadAtLeast(r, buf, min) with len(buf) = min *)
Fixpoint read_at_least (n : nat) (want : nat) (acc : list Z) (s : preader) : option (list Z * option err) :=
  match n with
  | O => None
  | S n =>
      match pr_read 100 (want - length acc) s with
      | (Ok (d, e), s') =>
          let acc := acc ++ d in
          if (want <=? length acc)%nat then Some (acc, None) else
          match e with
          | None => read_at_least n want acc s'
          | Some EEOF => Some (acc, Some (match acc with [] => EEOF | _ => EUnexpectedEOF end))
          | Some e => Some (acc, Some e)
          end
      | _ => None
      end
  end.
(** ioutil.ReadAll: reads of 512 bytes up to io.EOF *)
Fixpoint read_to_end (n : nat) (acc : list Z) (s : preader) : option (list Z * option err) :=
  match n with
  | O => None
  | S n =>
      match pr_read 100 512 s with
      | (Ok (d, e), s') =>
          match e with
          | None => read_to_end n (acc ++ d) s'
          | Some EEOF => Some (acc ++ d, None)
          | Some e => Some (acc ++ d, Some e)
          end
      | _ => None
      end
  end.
(** 8-25 TestReadingASinglePacket *)
Example TestReadingASinglePacket :
  read_at_least 10 184 [] (new_preader (src nullPacket) (IsPID 8191)) = Some (repeat 255 184, None).
Proof. lazy. reflexivity. Qed.
(** 27-44 TestReadingTwoPackets *)
Example TestReadingTwoPackets :
  read_at_least 10 (184 * 2) [] (new_preader (src (nullPacket ++ nullPacket)) (IsPID 8191)) = Some (repeat 255 (184 * 2), None).
Proof. lazy. reflexivity. Qed.
(** 46-56 TestReadingTooMuch *)
Example TestReadingTooMuch :
  option_map snd (read_at_least 10 (184 * 3) [] (new_preader (src (nullPacket ++ nullPacket)) (IsPID 8191))) =
    Some (Some EUnexpectedEOF).
Proof. lazy. reflexivity. Qed.
(** 58-68 TestStreamWithMultipleParts *)
Example TestStreamWithMultipleParts :
  option_map (fun x => (length (fst x), snd x)) (read_to_end 10 [] (new_preader (src shortTsStream) (IsPID 33))) =
    Some ((184 * 3)%nat, None).
Proof. lazy. reflexivity. Qed.

(** * ts/packet_tester_test.go *)

(** &ts.Packet{PID: pid, PayloadUnitStartIndicator: b} *)
Definition packet_of (pid : Z) (b : bool) : packet := set_pusi b (set_pid pid zero_packet).
(** 6-20 TestBasicPacketTester *)
Example TestBasicPacketTester : IsPID 1 (packet_of 1 false) = true /\ IsPID 1 (packet_of 2 false) = false.
Proof. split; reflexivity. Qed.
(** 22-52 TestAndingPacketTesters *)
Example TestAndingPacketTesters :
  let test := t_and (IsPID 1) IsPayloadUnitStart in
  test (packet_of 1 false) = false /\ test (packet_of 1 true) = true /\ test (packet_of 2 true) = false.
Proof. repeat split. Qed.

(** * ts/demuxer_test.go *)

(** The packets of a stream and the error at its end. *)
Fixpoint parse (n : nat) (st : packet * reader) : option (list packet * res unit) :=
  match n with
  | O => None
  | S n =>
      match packet_next st with
      | (Ok _, st') => match parse n st' with Some (ps, x) => Some (fst st' :: ps, x) | None => None end
      | (x, _) => Some ([], x)
      end
  end.
Lemma parse_parsed : forall n st ps x, parse n st = Some (ps, x) -> parsed st ps x.
Proof.
  induction n as [|n IH]; intros st ps x H; [discriminate|]. cbn [parse] in H.
  destruct (packet_next st) as [[[] | e | |] st'] eqn:E;
    try (injection H as <- <-; apply (parsed_end _ _ st'); [exact E | discriminate]).
  destruct (parse n st') as [[ps' x']|] eqn:P; [|discriminate]. injection H as <- <-.
  apply parsed_cons; [exact E | now apply IH].
Qed.
(** Under every schedule: when [true] has been received from the channel that Go() returned, so many packets
    have been received from the channels of the testers and Err() is [e]. *)
Definition demux_test (ts : list tester) (skip take : tester) (l : list Z) (counts : list nat) (e : option err) : Prop :=
  (exists s, star (dstep ts skip take) (d_init (src l)) s /\ d_dones s = 1%nat) /\
  forall s, star (dstep ts skip take) (d_init (src l)) s -> d_dones s = 1%nat ->
    d_err s = e /\ (forall i c, nth_error counts i = Some c -> length (received i (d_log s)) = c).
Definition demux_summary (ts : list tester) (skip take : tester) (l : list Z) : option (list nat * option err) :=
  match parse 10 (zero_packet, src l) with
  | Some (ps, x) => Some (map (fun t => length (filter t (window skip take ps))) ts,
                          if stopped skip take ps then None else match x with Err e => Some e | _ => None end)
  | None => None
  end.
Lemma demux_sound : forall ts skip take l counts e,
  demux_summary ts skip take l = Some (counts, e) -> demux_test ts skip take l counts e.
Proof.
  intros ts skip take l counts e H. unfold demux_summary in H.
  destruct (parse 10 (zero_packet, src l)) as [[ps x]|] eqn:P; [|discriminate].
  apply parse_parsed in P. injection H as <- <-. split.
  - destruct (C15_can_end ts skip take (src l) _ eq_refl (star_refl _ _)) as (s & Hs & E).
    exists s. split; auto. now apply (C15_done _ _ _ _ _ _ _ P Hs).
  - intros s Hs D. destruct (C15_done _ _ _ _ _ _ _ P Hs) as (_ & _ & F). destruct (F D) as (_ & F1 & F2).
    split; [exact F2|]. intros i c Hc. rewrite nth_error_map in Hc.
    destruct (@nth_error (packet -> bool) ts i) as [t|] eqn:T; cbn in Hc; [|discriminate Hc]. injection Hc as <-. now rewrite (F1 i t T).
Qed.
(** 37-65 TestDemuxingASingleStream (and 7-35 TestDemuxingASinglePacket, which stops early) *)
Example TestDemuxingASingleStream :
  demux_test [IsPID 8191] always_true always_true (nullPacket ++ nullPacket ++ nullPacket ++ nullPacket) [4%nat] (Some EEOF).
Proof. apply demux_sound. lazy. reflexivity. Qed.
(** 67-104 TestDemuxingUsingWheres *)
Example TestDemuxingUsingWheres :
  demux_test [IsPID 33; t_not (IsPID 33)] always_true always_true
    (nullPacket ++ dataPacket ++ nullPacket ++ dataPacket ++ nullPacket) [2%nat; 3%nat] (Some EEOF).
Proof. apply demux_sound. lazy. reflexivity. Qed.
(** 106-133 TestDemuxingRange *)
Example TestDemuxingRange :
  demux_test [always_true] (IsPID 49) (t_not (IsPID 65)) shortTsStream [2%nat] None.
Proof. apply demux_sound. lazy. reflexivity. Qed.

(** * pes/packet_test.go:7-26 TestPacketWithExtensionFlag *)
Example TestPacketWithExtensionFlag :
  match new_pes (src packetWithExtensionFlagData) with
  | (Ok _, (p, r)) =>
      match pp_header p with Some h => match ph_ext h with Some _ => true | None => false end | None => false end &&
      match peek_n 32 r with (Ok v, _) => v =? 4294967295 | _ => false end
  | _ => false
  end = true.
Proof. lazy. reflexivity. Qed.

(** * video/sequence_header_test.go:9-78 TestSequenceHeader.  ReadSequenceHeader returns the header beside io.EOF, the
    error of next_start_code; the model keeps the two apart. *)
Example TestSequenceHeader :
  match sequence_header_fields (src sequenceHeaderData) with
  | (Ok sh, r) =>
      sh_horizontal sh = 1280 /\ sh_vertical sh = 720 /\ sh_aspect sh = 3 /\ sh_frame_rate sh = 7 /\
      sh_bit_rate sh = 112500 /\ sh_vbv sh = 488 /\ sh_constrained sh = false /\ sh_load_intra sh = false /\
      sh_non_intra sh =
       [16; 17; 17; 18; 18; 18; 19; 19; 19; 19; 20; 20; 20; 20; 20; 21; 21; 21; 21; 21; 21; 22; 22; 22;
        22; 22; 22; 22; 23; 23; 23; 23; 23; 23; 23; 23; 24; 24; 24; 24; 24; 24; 24; 25; 25; 25; 25; 25;
        25; 26; 26; 26; 26; 26; 27; 27; 27; 27; 28; 28; 28; 29; 29; 30] /\
      fst (next_start_code r) = Err EEOF
  | _ => False
  end.
Proof. lazy. repeat split. Qed.

(** * The video in pes/data_test.go *)

(** The payload of that packet is the beginning of a real sequence of 720 x 480: sequence header, extensions, user
    data, group, picture header and coding extension (field DCT allowed, alternate scan, non-linear quantiser scale,
    table one), and slices.  Here: everything up to the end of the first slice, and a sequence end code.
    The samples expected are those of a transliteration of the Go code to Python, made from /repo without the model.
    All samples of the first four slices were compared in this way once, outside this file. *)
Definition real_slice : list Z := firstn (557 - 22) (skipn 22 packetWithExtensionFlagData) ++ [0; 0; 1; 183].
Definition picture_summary (x : res image * (vidseq * reader)) : option (Z * Z * nat * list Z) :=
  match x with
  | (Ok f, (_, r)) => Some (im_w f, im_h f, length (rbits r), map (fun x => luma f (440 + Z.of_nat x) 5) (seq 0 8))
  | _ => None
  end.
Example real_picture : picture_summary (next (new_vidseq, src real_slice)) = Some (720, 480, 32%nat, [15; 16; 16; 17; 16; 16; 16; 16]).
Proof. lazy. reflexivity. Qed.
