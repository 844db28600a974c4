(** * Base: bytes, little-endian numbers, 64-bit arithmetic, outcomes.

    Shared vocabulary of the model.  Nothing here models a specific function of
    /repo; it models the parts of Rust's core library the code relies on. *)
From Coq Require Export List NArith ZArith Lia Bool.
From Coq Require Export Init.Byte.
From Coq Require Strings.Byte.
From Coq Require Export ZifyBool ZifyNat ZifyN.
Export ListNotations.
#[global] Open Scope N_scope.
#[global] Open Scope list_scope.

#[global] Arguments N.add : simpl never.
#[global] Arguments N.sub : simpl never.
#[global] Arguments N.mul : simpl never.
#[global] Arguments N.div : simpl never.
#[global] Arguments N.modulo : simpl never.
#[global] Arguments N.pow : simpl never.
#[global] Arguments N.leb : simpl never.
#[global] Arguments N.ltb : simpl never.
#[global] Arguments N.eqb : simpl never.
#[global] Arguments N.min : simpl never.
#[global] Arguments N.max : simpl never.
#[global] Arguments N.of_nat : simpl never.
#[global] Arguments N.to_nat : simpl never.

(** ** Rust's [u8] *)

(** u8 -> integer ([u64::from(b)]). *)
Definition n8 (b : byte) : N := Strings.Byte.to_N b.

(** integer -> u8 by truncation ([x as u8]). *)
Definition b8 (n : N) : byte :=
  match Strings.Byte.of_N (n mod 256) with
  | Some b => b
  | None => x00
  end.

Definition bytes := list byte.

(** [slice.len()] as a number. *)
Definition lenN {A} (l : list A) : N := N.of_nat (length l).

(** [&l[off .. off+n]], clamped to the end of [l].  Callers guard the bounds
    where the Rust code would fail. *)
Definition slice {A} (l : list A) (off n : N) : list A :=
  firstn (N.to_nat (N.min n (lenN l))) (skipn (N.to_nat (N.min off (lenN l))) l).

(** [n] zero bytes ([vec![0; n]], [Default::default()] of a ByteValued struct). *)
Definition zeros (n : N) : bytes := repeat x00 (N.to_nat n).

(** ** Little-endian representation ([to_le_bytes] / [from_le_bytes], and the
    in-memory form of integers on the little-endian hosts the crate supports). *)
Fixpoint le_enc (k : nat) (n : N) : bytes :=
  match k with
  | O => []
  | S k' => b8 n :: le_enc k' (n / 256)
  end.

Fixpoint le_dec (l : bytes) : N :=
  match l with
  | [] => 0
  | b :: r => n8 b + 256 * le_dec r
  end.

(** ** 64-bit arithmetic *)
Definition two64 : N := 18446744073709551616.
Definition two63 : N := 9223372036854775808.
Definition two32 : N := 4294967296.
Definition u64_max : N := 18446744073709551615.
Definition u32_max : N := 4294967295.
Definition isize_max : N := 9223372036854775807.

(** Things that abort the Rust program (panics), plus the model's own
    [OutOfFuel], which the proofs show unreachable. *)
Inductive panic :=
| ArithOverflow        (* "attempt to add with overflow" (overflow-checks = on) *)
| SliceBounds          (* slice index / splice range out of bounds *)
| CapacityOverflow     (* Vec growth beyond isize::MAX bytes *)
| OutOfFuel.           (* artefact of the model's fuelled loops *)

(** Result of a Rust function returning [Result<A, E>]. *)
Inductive outcome (E A : Type) :=
| Ok (a : A)
| Err (e : E)
| Panic (p : panic).
Arguments Ok {E A} a.
Arguments Err {E A} e.
Arguments Panic {E A} p.

Definition obind {E A B} (x : outcome E A) (f : A -> outcome E B) : outcome E B :=
  match x with
  | Ok a => f a
  | Err e => Err e
  | Panic p => Panic p
  end.

(** [Option::ok_or(e)?]. *)
Definition ok_or {E A} (x : option A) (e : E) : outcome E A :=
  match x with Some a => Ok a | None => Err e end.

(** [u64::checked_add] (also [usize], [GuestAddress::checked_add]). *)
Definition checked_add (a b : N) : option N :=
  if a + b <? two64 then Some (a + b) else None.

(** [u64::checked_sub]. *)
Definition checked_sub (a b : N) : option N :=
  if b <=? a then Some (a - b) else None.

(** [u64::checked_mul]. *)
Definition checked_mul (a b : N) : option N :=
  if a * b <? two64 then Some (a * b) else None.

(** Which rustc profile the crate is built with: [true] = overflow checks on
    (debug), [false] = wrapping (release). *)
Definition build := bool.

(** Plain [a + b] on u64/usize. *)
Definition uadd {E} (overflow_checks : build) (a b : N) : outcome E N :=
  if a + b <? two64 then Ok (a + b)
  else if overflow_checks then Panic ArithOverflow
  else Ok ((a + b) mod two64).

(** Plain [a - b] on u64/usize. *)
Definition usub {E} (overflow_checks : build) (a b : N) : outcome E N :=
  if b <=? a then Ok (a - b)
  else if overflow_checks then Panic ArithOverflow
  else Ok (a + two64 - b).
