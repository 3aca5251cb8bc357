(** SpecIO: what a well behaved io.Reader does, whatever the sizes of the reads. *)
From Verif Require Import Base.

(** A reader over the bytes [content] that ends with [e]: a read of [n] bytes gives [n] bytes while
    there are that many, otherwise what is left together with [e]. *)
Definition ideal_read (e : err) (n : nat) (content : list Z) : (list Z * option err) * list Z :=
  if Nat.leb n (length content)
  then ((firstn n content, None), skipn n content)
  else ((content, Some e), []).

(** A sequence of reads of the given sizes. *)
Fixpoint ideal_reads (e : err) (sizes : list nat) (content : list Z) : list (list Z * option err) :=
  match sizes with
  | [] => []
  | n :: t => let '(out, c') := ideal_read e n content in out :: ideal_reads e t c'
  end.

(** All bytes returned by a sequence of reads. *)
Definition delivered (outs : list (list Z * option err)) : list Z := concat (map fst outs).

(** Total size asked for. *)
Definition asked (sizes : list nat) : nat := fold_right Nat.add 0%nat sizes.

Lemma ideal_empty : forall e sizes, delivered (ideal_reads e sizes []) = [].
Proof.
  intros e sizes. induction sizes as [|n t IH]; [reflexivity|].
  cbn [ideal_reads]. unfold ideal_read. destruct n; cbn; exact IH.
Qed.

(** Whatever the sizes, the bytes returned are the first [asked sizes] bytes of the content. *)
Lemma ideal_delivered : forall e sizes content,
  delivered (ideal_reads e sizes content) = firstn (asked sizes) content.
Proof.
  intros e sizes. induction sizes as [|n t IH]; intros content; [reflexivity|].
  cbn [ideal_reads asked fold_right]. unfold ideal_read.
  destruct (Nat.leb_spec n (length content)).
  - unfold delivered in *. cbn [map concat fst]. rewrite IH.
    change (fold_right Nat.add 0%nat t) with (asked t).
    rewrite <- (firstn_skipn n content) at 3.
    rewrite firstn_app, firstn_length_le by auto.
    rewrite (firstn_all2 (n := (n + asked t)%nat)) by (rewrite firstn_length; lia).
    f_equal. f_equal. lia.
  - unfold delivered in *. cbn [map concat fst]. fold (delivered (ideal_reads e t [])).
    rewrite ideal_empty, app_nil_r.
    rewrite firstn_all2; [reflexivity|]. lia.
Qed.

(** A read without error filled the buffer; an error comes only when the content is exhausted. *)
Lemma ideal_full : forall e sizes content i n out,
  nth_error sizes i = Some n -> nth_error (ideal_reads e sizes content) i = Some out ->
  (snd out = None -> length (fst out) = n) /\
  (snd out <> None -> snd out = Some e /\ (length (fst out) < n)%nat /\
     (length content < asked (firstn (S i) sizes))%nat).
Proof.
  intros e sizes. induction sizes as [|n0 t IH]; intros content i n out Hs Ho.
  - destruct i; discriminate.
  - cbn [ideal_reads] in Ho. unfold ideal_read in Ho.
    destruct (Nat.leb_spec n0 (length content)).
    + destruct i; cbn [nth_error] in *.
      * inversion Hs; inversion Ho; subst. cbn [fst snd]. split; [|congruence].
        intros _. rewrite firstn_length. lia.
      * destruct (IH _ _ _ _ Hs Ho) as [A B]. split; auto. intro N. destruct (B N) as (B1 & B2 & B3).
        rewrite skipn_length in B3. repeat split; auto. cbn [firstn asked fold_right] in *.
        unfold asked in *. lia.
    + destruct i; cbn [nth_error] in *.
      * inversion Hs; inversion Ho; subst. cbn [fst snd]. split; [congruence|].
        intros _. repeat split; auto. cbn [firstn asked fold_right]. lia.
      * destruct (IH _ _ _ _ Hs Ho) as [A B]. split; auto. intro N. destruct (B N) as (B1 & B2 & B3).
        repeat split; auto. cbn [firstn asked fold_right] in *. unfold asked in *. lia.
Qed.

(** ** A reader that stops early: content [c], then a last chunk [last] whose first use ends it. *)
Definition cut_read (last : list Z) (n : nat) (c : option (list Z))
  : (list Z * option err) * option (list Z) :=
  match c with
  | None => (([], Some EEOF), None)
  | Some c =>
      if Nat.leb n (length c) then ((firstn n c, None), Some (skipn n c))
      else ((firstn n (c ++ last), Some EEOF), None)
  end.
Fixpoint cut_reads (last : list Z) (sizes : list nat) (c : option (list Z)) : list (list Z * option err) :=
  match sizes with
  | [] => []
  | n :: t => let '(out, c') := cut_read last n c in out :: cut_reads last t c'
  end.

(** ** A reader of separate units, each ended by EOP *)
(** State: [Some b] - inside a unit with [b] left; [None] - between units. *)
Definition unit_read (e : err) (n : nat) (cur : option (list Z)) (us : list (list Z))
  : (list Z * option err) * (option (list Z) * list (list Z)) :=
  let serve b us := if Nat.leb n (length b) then ((firstn n b, None), (Some (skipn n b), us))
                    else ((b, Some EOP), (None, us)) in
  match cur, us with
  | Some b, _ => serve b us
  | None, u :: us' => serve u us'
  | None, [] => (([], Some e), (None, []))
  end.
Fixpoint unit_reads (e : err) (sizes : list nat) (cur : option (list Z)) (us : list (list Z))
  : list (list Z * option err) :=
  match sizes with
  | [] => []
  | n :: t => let '(out, (cur', us')) := unit_read e n cur us in out :: unit_reads e t cur' us'
  end.

(** Splitting the outputs at the EOPs gives back the units. *)
Fixpoint split_eop (acc : list Z) (outs : list (list Z * option err)) : list (list Z) :=
  match outs with
  | [] => []
  | (b, Some EOP) :: t => (acc ++ b) :: split_eop [] t
  | (b, _) :: t => split_eop (acc ++ b) t
  end.

Definition pref (c : option (list Z)) : list (list Z) := match c with Some b => [b] | None => [] end.

(** The units seen between EOPs are, in order, the first of the given units (here [acc] is what
    was already read of the current one). *)
Lemma unit_split : forall e sizes cur us acc, e <> EOP -> (cur = None -> acc = []) ->
  exists k, split_eop acc (unit_reads e sizes cur us) =
            firstn k (match cur with Some b => (acc ++ b) :: us | None => us end).
Proof.
  intros e sizes. induction sizes as [|n t IH]; intros cur us acc He Hacc.
  - exists 0%nat. reflexivity.
  - cbn [unit_reads]. unfold unit_read.
    assert (S : forall b us0,
      exists k, split_eop acc (let '(out, (cur', us')) :=
         (if Nat.leb n (length b) then ((firstn n b, None), (Some (skipn n b), us0))
          else ((b, Some EOP), (None, us0))) in out :: unit_reads e t cur' us') = firstn k ((acc ++ b) :: us0)).
    { intros b us0. destruct (Nat.leb n (length b)).
      - cbn [split_eop].
        destruct (IH (Some (skipn n b)) us0 (acc ++ firstn n b) He) as [k Hk]; [discriminate|].
        exists k. rewrite Hk. now rewrite <- app_assoc, firstn_skipn.
      - cbn [split_eop]. destruct (IH None us0 [] He) as [k Hk]; [auto|].
        exists (S k). cbn [firstn]. now rewrite Hk. }
    destruct cur as [b|].
    + apply S.
    + destruct us as [|u us'].
      * cbn [split_eop]. rewrite Hacc by auto. cbn [app].
        destruct (IH None [] [] He) as [k Hk]; [auto|]. exists k.
        destruct e; try congruence; exact Hk.
      * rewrite Hacc in S by auto. rewrite Hacc by auto. apply S.
Qed.
