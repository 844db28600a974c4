(** * SpecMem: what it means for guest memory to hold bytes.

    Specification vocabulary.  It uses only the region table of a guest memory and
    the guest's byte at each address, none of the model's access functions. *)
From Verif Require Import Base Mem.

(** Address [x] is backed by guest memory. *)
Definition backed (m : gmem) (x : N) : Prop :=
  exists r, In r (regions m) /\ r_base r <= x /\ x < r_base r + r_len r.

(** All of [a, a+n) is backed. *)
Definition range_backed (m : gmem) (a n : N) : Prop :=
  forall x, a <= x -> x < a + n -> backed m x.

(** Guest memory holds exactly [bs] starting at [a]. *)
Definition holds_at (m : gmem) (a : N) (bs : bytes) : Prop :=
  forall i b, nth_error bs (N.to_nat i) = Some b -> gm_byte m (a + i) = b.

(** Nothing changed: same regions, same byte everywhere. *)
Definition mem_same (m m' : gmem) : Prop :=
  regions m' = regions m /\ forall x, gm_byte m' x = gm_byte m x.

(** Nothing changed outside [P]. *)
Definition same_outside (m m' : gmem) (P : N -> Prop) : Prop :=
  regions m' = regions m /\ forall x, ~ P x -> gm_byte m' x = gm_byte m x.

(** [x] lies in [a, a+n). *)
Definition in_range (a n x : N) : Prop := a <= x /\ x < a + n.

(** Contents [f] with [bs] laid over it at [a]. *)
Definition put (f : N -> byte) (a : N) (bs : bytes) : N -> byte :=
  fun x => if (a <=? x) && (x <? a + lenN bs) then nth (N.to_nat (x - a)) bs x00 else f x.

(** Several pieces laid over [f], later pieces on top. *)
Definition overlay (f : N -> byte) (segs : list (N * bytes)) : N -> byte :=
  fold_left (fun g s => put g (fst s) (snd s)) segs f.

(** [m'] is [m] with exactly these pieces written. *)
Definition mem_is_overlay (m m' : gmem) (segs : list (N * bytes)) : Prop :=
  regions m' = regions m /\ forall x, gm_byte m' x = overlay (gm_byte m) segs x.
