(** Exec: lemmas and tactics for running the model on encoded input. *)
From Verif Require Import Base BitReader.

Lemma bind_assoc : forall S A B C (m : M S A) (f : A -> M S B) (g : B -> M S C) s,
  bind (bind m f) g s = bind m (fun a => bind (f a) g) s.
Proof. intros. unfold bind. destruct (m s) as [[]]; reflexivity. Qed.

Lemma bind_ret : forall S A B (a : A) (k : A -> M S B) s, bind (ret a) k s = k a s.
Proof. reflexivity. Qed.

Lemma bind_upd : forall T R B (f : T -> T) (k : unit -> M (T * R) B) t r,
  bind (upd f) k (t, r) = k tt (f t, r).
Proof. reflexivity. Qed.

Lemma bind_onr_ok : forall T R A B (m : M R A) (k : A -> M (T * R) B) t r a r',
  m r = (Ok a, r') -> bind (onr m) k (t, r) = k a (t, r').
Proof. intros. unfold bind, onr; simpl. now rewrite H. Qed.

Lemma bind_onr_err : forall T R A B (m : M R A) (k : A -> M (T * R) B) t r e r',
  m r = (Err e, r') -> bind (onr m) k (t, r) = (Err e, (t, r')).
Proof. intros. unfold bind, onr; simpl. now rewrite H. Qed.

Lemma bind_onrz_ok : forall T R A B z (m : M R A) (k : A -> M (T * R) B) t r a r',
  m r = (Ok a, r') -> bind (onrz z m) k (t, r) = k a (t, r').
Proof. intros. unfold bind, onrz; simpl. now rewrite H. Qed.

Lemma bind_onrz_err : forall T R A B z (m : M R A) (k : A -> M (T * R) B) t r e r',
  m r = (Err e, r') -> bind (onrz z m) k (t, r) = (Err e, (z t, r')).
Proof. intros. unfold bind, onrz; simpl. now rewrite H. Qed.

Lemma ignore_ok : forall S A (d : A) (m : M S A) s a s',
  m s = (Ok a, s') -> ignore_err d m s = (Ok a, s').
Proof. intros. unfold ignore_err. now rewrite H. Qed.

Lemma if_bind : forall S A B (c : bool) (x y : M S A) (k : A -> M S B) s,
  bind (if c then x else y) k s = if c then bind x k s else bind y k s.
Proof. intros. destruct c; reflexivity. Qed.

Ltac rng := first [ assumption | lia | cbn; lia ].

(** Prove one primitive step [m (setb r (piece ++ l)) = (Ok _, _)]. *)
Ltac prim :=
  first
    [ apply read_enc; rng
    | apply read1_bit
    | apply read1_cons
    | apply skip_enc
    | apply ignore_ok; apply skip_enc
    | apply peek_enc; rng
    | apply read_bytes_bb; assumption ].

Ltac xstep :=
  cbv beta iota;
  lazymatch goal with
  | |- bind (bind _ _) _ _ = _ => rewrite bind_assoc
  | |- bind (ret _) _ _ = _ => rewrite bind_ret
  | |- bind (upd _) _ (_, _) = _ => rewrite bind_upd
  | |- bind (onr _) _ (_, _) = _ => erewrite bind_onr_ok; [ | prim ]
  | |- bind (onrz _ _) _ (_, _) = _ => erewrite bind_onrz_ok; [ | prim ]
  | |- bind _ _ _ = _ => erewrite bind_ok; [ | prim ]
  end; cbv beta iota.
Ltac xrun := repeat xstep.
