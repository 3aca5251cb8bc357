(** SpecOrder: video sequences whose slices arrive in another order, more than once, or not at all.  Sequences, pictures, slices and
    their losses are those of SpecNext, SpecPicture and SpecLoss. *)
From Verif Require Import Base SpecVid VidModel MbModel SpecMotion SpecNext SpecPicture SpecLoss.

(** The macroblocks of a slice: those of its row from its first to its last, skipped ones among them. *)
Definition first_mb (l : sslice) : Z := match sl_mbs l with b :: _ => b_incr b - 1 | [] => 0 end.
Definition last_mb (l : sslice) : Z := fold_right (fun b n => b_incr b + n) (-1) (sl_mbs l).
Definition covers (l : sslice) (row col : Z) : Prop := row = sl_row l /\ first_mb l <= col <= last_mb l.
(** Two slices with no macroblock in common *)
Definition apart (a b : sslice) : Prop := forall row col, ~ (covers a row col /\ covers b row col).

(** Slices with their bits in another order: slices with no macroblock in common may change places, and a slice may be
    repeated. *)
Inductive shuffled : list (sslice * list bool) -> list (sslice * list bool) -> Prop :=
| shuffled_nil : shuffled [] []
| shuffled_skip : forall c l l', shuffled l l' -> shuffled (c :: l) (c :: l')
| shuffled_swap : forall a b l, apart (fst a) (fst b) -> shuffled (a :: b :: l) (b :: a :: l)
| shuffled_again : forall c l, shuffled (c :: l) (c :: c :: l)
| shuffled_trans : forall l l' l'', shuffled l l' -> shuffled l' l'' -> shuffled l l''.

(** The slices that arrive, with their bits *)
Fixpoint arriving (ls : list sslice) (K : cuts) : list (sslice * list bool) :=
  match ls, K with
  | l :: ls, (true, c) :: K => (l, c) :: arriving ls K
  | _ :: ls, (false, _) :: K => arriving ls K
  | _, _ => []
  end.
(** The picture [m] is what arrives of the picture [p] with slices [K], in another order.  ([pi_frame] is not part of
    the stream.) *)
Definition picture_mixed (c : context) (o l : known) (p : spicture) (K : cuts) (m : spicture) : Prop :=
  exists ls cs,
    Forall2 (slice_code (params_of c o l p)) ls (map snd K) /\ pi_frame p = picture_paint (params_of c o l p) ls /\
    shuffled (arriving ls K) cs /\
    m = mkPicture (pi_hdr p) (pi_k1 p) (pi_pce p) (pi_k2 p) (pi_items p) (concat (map snd cs)) (pi_frame p).
(** Every picture with its context and references, as in [pictures_cut] and [groups_cut] *)
Fixpoint pictures_mixed (c : context) (o l : known) (ps : list (spicture * cuts)) (ms : list spicture) : Prop :=
  match ps, ms with
  | [], [] => True
  | (p, K) :: ps, m :: ms => let c := ctx_items c (pi_items p) in
      picture_mixed c o l p K m /\ pictures_mixed c (older o l p) (latest l p) ps ms
  | _, _ => False
  end.
Fixpoint groups_mixed (c : option context) (o l : known) (gs : list lgroup) (ms : list sgroup) : Prop :=
  match gs, ms with
  | [], [] => True
  | g :: gs, m :: ms =>
      match (match gr_start (fst g) with Some s => Some (ctx_start s) | None => c end) with
      | None => False
      | Some c =>
          gr_start m = gr_start (fst g) /\ gr_hdr m = gr_hdr (fst g) /\ gr_k m = gr_k (fst g) /\ gr_items m = gr_items (fst g) /\
          pictures_mixed c o l (pairs g) (gr_pics m) /\
          let '(c, o, l) := after_pictures c o l (gr_pics (fst g)) in groups_mixed (Some c) o l gs ms
      end
  | _, _ => False
  end.
Definition sequence_mixed (gs : list lgroup) (ms : list sgroup) : Prop := groups_mixed None Unknown Unknown gs ms.
