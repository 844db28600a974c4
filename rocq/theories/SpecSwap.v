(** * SpecSwap: exchanging the implementation of guest memory or of the image source.

    A [world] (Ask.v) is an implementation of both.  Two of them answer alike if some relation
    between their states is kept by every operation, each giving the same answer. *)
From Verif Require Import Base Mem SpecMem Source Ask SpecAsk.
Local Open Scope list_scope.

Definition alike {W V} (R : W -> V -> Prop) (wd : world W) (vd : world V) : Prop :=
  forall w v x w', R w v -> happens wd w x w' -> exists v', happens vd v x v' /\ R w' v'.

(** A VMM: calls one after the other.  Before the [i]-th of them it does something of its own to
    the world ([own i]: opens another image, reads or writes guest memory, ...). *)
Inductive session {W} (wd : world W) (own : nat -> W -> W) : nat -> list call -> W -> W -> list result -> Prop :=
| se_end i w : session wd own i [] w w []
| se_call i c cs w w1 r w' rs :
    call_runs wd c (own i w) w1 r -> session wd own (S i) cs w1 w' rs -> session wd own i (c :: cs) w w' (r :: rs).

(** The addresses an operation is asked to write to. *)
Definition covers (x : act) (a : N) : Prop :=
  match x with
  | Placed b n _ => in_range b n a
  | Wrote bs b _ => in_range b (lenN bs) a
  | _ => False
  end.
(** Guest memory, as [view] shows it, changes only where an operation is asked to write, if at all;
    [sane] is what may be relied on in every state. *)
Definition modest {W} (wd : world W) (sane : W -> Prop) (view : W -> N -> byte) : Prop :=
  forall w x w', sane w -> happens wd w x w' -> sane w' /\ forall a, view w' a = view w a \/ covers x a.

(** Dirty tracking around an implementation: note every range that is to be written, before
    passing the request on; all answers are passed back as they are. *)
Definition pass {W A} (d : list (N * N)) (r : W * A) : (W * list (N * N)) * A := ((fst r, d), snd r).
Definition tracked {W} (wd : world W) : world (W * list (N * N)) := mkWorld (W * list (N * N))
  (fun w => pass (snd w) (on_end wd (fst w)))
  (fun w p => pass (snd w) (on_to wd (fst w) p))
  (fun w d => pass (snd w) (on_by wd (fst w) d))
  (fun w n => pass (snd w) (on_all wd (fst w) n))
  (fun w n => pass (snd w) (on_some wd (fst w) n))
  (fun w a n => pass (snd w ++ [(a, n)]) (on_place wd (fst w) a n))
  (fun w a n => pass (snd w) (on_fits wd (fst w) a n))
  (fun w bs a => pass (snd w ++ [(a, lenN bs)]) (on_write wd (fst w) bs a))
  (fun w => pass (snd w) (on_last wd (fst w))).
Definition dirty (d : list (N * N)) (a : N) : Prop := exists b n, In (b, n) d /\ in_range b n a.
(** No read into guest memory gives more bytes than it was asked for. *)
Definition no_more_than_asked {S} (src : source S) : Prop := forall s n s' bs, so_read_retry src s n = (s', Some bs) -> lenN bs <= n.
