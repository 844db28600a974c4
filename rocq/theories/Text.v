(** * Text: Rust [str] / [String] and the standard library functions on them that
    src/cmdline/mod.rs uses.

    A string is the list of its Unicode scalar values.  Byte lengths and byte
    contents are those of the UTF-8 encoding. *)
From Verif Require Import Base.
From Coq Require Export String Ascii.
Export List.
#[global] Open Scope string_scope.
#[global] Open Scope N_scope.
#[global] Open Scope list_scope.

Notation char := N (only parsing).
Notation text := (list N) (only parsing).

(** A Rust literal made of ASCII characters. *)
(** The literals of src/cmdline/mod.rs:17, 201-243, 387-449. *)
Definition txt (s : string) : text := map N_of_ascii (list_ascii_of_string s).

(** [char::encode_utf8].  The leading byte of the 4-byte form is taken modulo 8, which is
    the identity on Unicode scalar values (below 0x110000). *)
(** Under [CString::new], src/cmdline/mod.rs:386, 390, 392. *)
Definition utf8_char (c : char) : bytes :=
  if c <? 128 then [b8 c]
  else if c <? 2048 then [b8 (192 + c / 64); b8 (128 + c mod 64)]
  else if c <? 65536 then [b8 (224 + c / 4096); b8 (128 + c / 64 mod 64); b8 (128 + c mod 64)]
  else [b8 (240 + c / 262144 mod 8); b8 (128 + c / 4096 mod 64); b8 (128 + c / 64 mod 64);
        b8 (128 + c mod 64)].

(** [str::as_bytes]. *)
(** Under [CString::new], src/cmdline/mod.rs:386, 390, 392. *)
Definition utf8 (s : text) : bytes := flat_map utf8_char s.

(** [str::len]: number of UTF-8 bytes ([char::len_utf8] summed). *)
(** [len] is called at src/cmdline/mod.rs:92, 104, 281, 330, 337, 356-359, 537-545. *)
Definition len_utf8 (c : char) : N :=
  if c <? 128 then 1 else if c <? 2048 then 2 else if c <? 65536 then 3 else 4.

(** [len] is called at src/cmdline/mod.rs:92, 104, 281, 330, 337, 356-359, 537-545. *)
Fixpoint str_len (s : text) : N :=
  match s with [] => 0 | c :: r => len_utf8 c + str_len r end.

(** [char::is_whitespace] (Unicode White_Space). *)
(** Under [trim], src/cmdline/mod.rs:268, 320, 532-533. *)
Definition is_whitespace (c : char) : bool :=
  ((9 <=? c) && (c <=? 13)) || (c =? 32) || (c =? 133) || (c =? 160) || (c =? 5760)
  || ((8192 <=? c) && (c <=? 8202)) || (c =? 8232) || (c =? 8233) || (c =? 8239)
  || (c =? 8287) || (c =? 12288).

(** [str::trim_start], [str::trim]. *)
(** Under [trim], src/cmdline/mod.rs:268, 320, 532-533. *)
Fixpoint trim_start (s : text) : text :=
  match s with
  | [] => []
  | c :: r => if is_whitespace c then trim_start r else s
  end.

(** Called at src/cmdline/mod.rs:268, 320, 532-533. *)
Definition trim (s : text) : text := rev (trim_start (rev (trim_start s))).

(** [str::contains(char)], and counting ([str::matches(char).count()]). *)
(** Called at src/cmdline/mod.rs:113-115, 127. *)
Definition contains (s : text) (c : char) : bool := existsb (N.eqb c) s.

(** Called at src/cmdline/mod.rs:473. *)
Definition count (s : text) (c : char) : N :=
  N.of_nat (List.length (filter (N.eqb c) s)).

(** [str::starts_with(str)]. *)
(** Under [match_indices], src/cmdline/mod.rs:517. *)
Fixpoint starts_with (s p : text) : bool :=
  match p, s with
  | [], _ => true
  | _ :: _, [] => false
  | a :: p', b :: s' => (a =? b) && starts_with s' p'
  end.

(** [str::match_indices(pat)] for a non-empty [pat]: start positions of the
    non-overlapping occurrences, leftmost first.  Positions count characters
    (the Rust ones count bytes); [skip] characters belong to the previous match. *)
(** Under [match_indices], src/cmdline/mod.rs:517. *)
Fixpoint match_indices_from (pat s : text) (i : nat) (skip : nat) : list nat :=
  match s with
  | [] => []
  | _ :: r =>
      match skip with
      | S k => match_indices_from pat r (S i) k
      | O => if starts_with s pat
             then i :: match_indices_from pat r (S i) (List.length pat - 1)
             else match_indices_from pat r (S i) O
      end
  end.

(** Called at src/cmdline/mod.rs:517. *)
Definition match_indices (s pat : text) : list nat := match_indices_from pat s O O.

(** [\[&str\]::join(sep)]. *)
(** Called at src/cmdline/mod.rs:243. *)
Fixpoint join (sep : text) (l : list text) : text :=
  match l with
  | [] => []
  | [x] => x
  | x :: r => x ++ sep ++ join sep r
  end.

(** Integer formatting: [format!("{}", n)] and [format!("{:x?}", n)]. *)
(** Under the format! calls at src/cmdline/mod.rs:442-467. *)
Definition digit_char (d : N) : char := if d <? 10 then 48 + d else 87 + d.

(** Under the format! calls at src/cmdline/mod.rs:442-467. *)
Fixpoint digits (base : N) (fuel : nat) (n : N) (acc : text) : text :=
  match fuel with
  | O => acc
  | S f =>
      let acc' := digit_char (n mod base) :: acc in
      if n / base =? 0 then acc' else digits base f (n / base) acc'
  end.

(** Under the format! calls at src/cmdline/mod.rs:442-467. *)
Definition fmt_dec (n : N) : text := digits 10 (S (N.size_nat n)) n [].
(** Under the format! call at src/cmdline/mod.rs:442. *)
Definition fmt_hex (n : N) : text := digits 16 (S (N.size_nat n)) n [].
