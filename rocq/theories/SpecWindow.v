(** SpecWindow: what ts.NewPayloadReader with SkipUntil and TakeWhile returns over any bytes, whatever the sizes of the
    reads. *)
From Verif Require Import Base BitReader TsModel SpecUnitTape.

(** What the reader makes of the calls of Next (see [log]): the payload of a packet that [w] accepts; an error; the packet
    on which the reader closes, the first one that [t] does not accept. *)
Inductive event : Type := Gives (b : list Z) | Fails (e : err) | Closes (b : list Z).
Definition event_of (w t : tester) (x : packet * option err) : event :=
  match x with
  | (p, Some e) => Fails e
  | (p, None) => if t p then Gives (adds w p) else Closes (adds w p)
  end.
Definition events (w t : tester) (l : list (packet * option err)) : list event := map (event_of w t) l.

(** SkipUntil(u): the calls up to the first one that leaves a packet which [u] accepts - also if the call fails -; the
    payload of that packet, whether or not [w] and [t] accept it; and the calls after it. *)
Fixpoint skipped (u : tester) (l : list (packet * option err)) : option (list Z * list (packet * option err)) :=
  match l with
  | [] => None
  | (p, _) :: l => if u p then Some (pk_payload p, l) else skipped u l
  end.

(** One Read of [n] bytes, with [have] already there: it returns when it has [n] bytes, at an error, and where the reader
    closes.  What of the closing packet does not fit is lost.  [None]: the events are too few to tell. *)
Inductive phase : Type := Open (have : list Z) (es : list event) | Closed.
Fixpoint serve (n : nat) (have : list Z) (es : list event) : option ((list Z * option err) * phase) :=
  match es with
  | _ => if (n <=? length have)%nat then Some ((firstn n have, None), Open (skipn n have) es) else
    match es with
    | [] => None
    | Gives b :: t => serve n (have ++ b) t
    | Fails e :: t => Some ((have, Some e), Open [] t)
    | Closes b :: _ => Some ((firstn n (have ++ b), Some EEOF), Closed)
    end
  end.
(** A closed reader answers EOF. *)
Fixpoint phase_reads (sizes : list nat) (ph : phase) : option (list (list Z * option err)) :=
  match sizes with
  | [] => Some []
  | n :: t =>
      match ph with
      | Closed => option_map (cons ([], Some EEOF)) (phase_reads t Closed)
      | Open have es =>
          match serve n have es with
          | None => None
          | Some (out, ph') => option_map (cons out) (phase_reads t ph')
          end
      end
  end.
(** The reads of a new reader: the first one skips. *)
Definition window_reads (skip : option tester) (w t : tester) (sizes : list nat) (l : list (packet * option err)) : option (list (list Z * option err)) :=
  match sizes, skip with
  | [], _ => Some []
  | _, None => phase_reads sizes (Open [] (events w t l))
  | _, Some u => match skipped u l with None => None | Some (d, l) => phase_reads sizes (Open d (events w t l)) end
  end.

(** NewPayloadReader(r, w), then TakeWhile(t) and, if wanted, SkipUntil *)
Definition window_reader (skip : option tester) (w t : tester) (r : reader) : preader :=
  let s := pr_take_while t (new_preader r w) in match skip with Some u => pr_skip_until u s | None => s end.
