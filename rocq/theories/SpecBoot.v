(** * SpecBoot: what adding an element to a boot parameter list means, and histories of calls. *)
From Verif Require Import Base Mem SpecMem BootParams.

(** [v'] is the list [v] with element [e] stored at offset [off]: nothing else in [v] changes,
    a gap is filled with zeros, and the list only grows. *)
Definition placed (v : bytes) (off : N) (e v' : bytes) : Prop :=
  lenN v' = N.max (lenN v) (off + lenN e) /\
  forall j, j < lenN v' ->
    nth_error v' (N.to_nat j) =
      if (off <=? j) && (j <? off + lenN e) then nth_error e (N.to_nat (j - off))
      else if j <? lenN v then nth_error v (N.to_nat j) else Some x00.

(** The contents of a list, an absent list being empty. *)
Definition contents (o : option bytes) : bytes := match o with Some v => v | None => [] end.
(** The address the list starts at, or will start at. *)
Definition start_with (start addr : option N) : option N := match start with Some s => Some s | None => addr end.

(** Parameters of a call are u64 addresses and values that fit in memory. *)
Definition call_ok (start addr : option N) (v e : bytes) : Prop :=
  (forall s, start = Some s -> s < 2 ^ 64) /\ (forall a, addr = Some a -> a < 2 ^ 64) /\
  lenN v <= 2 ^ 63 - 1 /\ lenN e <= 2 ^ 63 - 1.

(** The two lists, so that one statement can speak about both. *)
Inductive which := Sections | Modules.
Definition list_of (w : which) (p : boot_info) : option bytes := match w with Sections => sections p | Modules => modules p end.
Definition start_of (w : which) (p : boot_info) : option N := match w with Sections => sections_start p | Modules => modules_start p end.
Definition other (w : which) : which := match w with Sections => Modules | Modules => Sections end.
(** [add_section] / [add_module], [set_sections] / [set_modules]. *)
Definition add (w : which) := match w with Sections => add_section | Modules => add_module end.
Definition set_list (w : which) := match w with Sections => set_sections | Modules => set_modules end.
(** Only the list [w] and its start address may differ. *)
Definition same_but (w : which) (p p' : boot_info) : Prop :=
  header p' = header p /\ header_start p' = header_start p /\
  list_of (other w) p' = list_of (other w) p /\ start_of (other w) p' = start_of (other w) p.

(** Adding several elements one after the other, without an explicit address. *)
Fixpoint append_all (bld : build) (w : which) (p : boot_info) (es : list bytes) : boot_info * list (outcome berror N) :=
  match es with
  | [] => (p, [])
  | e :: es' =>
      let (p1, o) := add w bld p e None in
      let (p2, os) := append_all bld w p1 es' in (p2, o :: os)
  end.

(** Calls on boot parameters, and what one of them does. *)
Inductive bcall := BSet (w : which) (es : list bytes) (a : N) | BAdd (w : which) (e : bytes) (addr : option N).
Definition call (bld : build) (p : boot_info) (c : bcall) : boot_info * outcome berror N :=
  match c with
  | BSet w es a => (set_list w p es a, Ok a)
  | BAdd w e addr => add w bld p e addr
  end.
(** What the types guarantee: 64-bit addresses, and no value longer than isize::MAX bytes. *)
Definition sized (p : boot_info) : Prop :=
  forall w, lenN (contents (list_of w p)) <= 2 ^ 63 - 1 /\ (forall s, start_of w p = Some s -> s < 2 ^ 64).
Definition call_sized (c : bcall) : Prop :=
  match c with
  | BSet _ es a => lenN (concat es) <= 2 ^ 63 - 1 /\ a < 2 ^ 64
  | BAdd _ e addr => lenN e <= 2 ^ 63 - 1 /\ (forall a, addr = Some a -> a < 2 ^ 64)
  end.

(** [p] becomes [p'] by any number of calls, none of which aborts, and each satisfying [keep]
    (given the call and its outcome). *)
Inductive history (bld : build) (keep : bcall -> outcome berror N -> Prop) : boot_info -> boot_info -> Prop :=
| hist_nil p : history bld keep p p
| hist_call p c p' o p'' : call_sized c -> call bld p c = (p', o) -> (forall q, o <> Panic q) -> keep c o ->
    history bld keep p' p'' -> history bld keep p p''.

(** [a, a+n) and [b, b+k) have no address in common. *)
Definition apart (a n b k : N) : Prop := a + n <= b \/ b + k <= a \/ n = 0 \/ k = 0.

(** The call neither replaces list [w] nor stores another of its elements over [a, a+n). *)
Definition keeps (w : which) (a n : N) (c : bcall) (o : outcome berror N) : Prop :=
  match c with
  | BSet w' _ _ => w' <> w
  | BAdd w' e _ => w' = w -> forall b, o = Ok b -> apart a n b (lenN e)
  end.
