(** * SpecCmdline: what the command line builder promises.

    Specification vocabulary for the properties C01-C19.  It refers to texts (lists of
    Unicode scalar values), their UTF-8 bytes ([utf8], the encoding standard) and the types of
    Cmdline.v, not to the model's functions. *)
From Verif Require Import Base Text Cmdline.

(** ' ' .. '~' *)
Definition printable (c : N) : Prop := 32 <= c /\ c <= 126.

(** The Unicode White_Space characters. *)
Definition white_space_chars : list N :=
  [ 9; 10; 11; 12; 13; 32; 133; 160; 5760;
    8192; 8193; 8194; 8195; 8196; 8197; 8198; 8199; 8200; 8201; 8202;
    8232; 8233; 8239; 8287; 12288 ].
Definition white (c : N) : Prop := In c white_space_chars.

(** [t] is [s] without leading and trailing white space. *)
Definition trimmed_of (s t : text) : Prop :=
  exists l r, s = l ++ t ++ r /\ Forall white l /\ Forall white r /\
    (forall c t', t = c :: t' -> ~ white c) /\ (forall c t', t = t' ++ [c] -> ~ white c).

(** The command line text: boot arguments, then " -- " and the init arguments if any. *)
Definition full_text (boot init : text) : text :=
  match init with [] => boot | _ => boot ++ txt " -- " ++ init end.

(** It fits, with its NUL, in [cap] bytes. *)
Definition fits (boot init : text) (cap : N) : Prop :=
  lenN (utf8 (full_text boot init)) + 1 <= cap.

(** The same with the separator counted even if the init part is blank. *)
Definition fits_with_sep (boot init : text) (cap : N) : Prop :=
  lenN (utf8 (boot ++ txt " -- " ++ init)) + 1 <= cap.

(** One more argument after those already there. *)
Definition add_arg (cur new : text) : text :=
  match cur with [] => new | _ => cur ++ txt " " ++ new end.

(** Arguments separated by one space; blanks before the first text vanish. *)
Fixpoint spaced (l : list text) : text :=
  match l with
  | [] => []
  | [x] => x
  | x :: r => x ++ txt " " ++ spaced r
  end.
Fixpoint drop_blank (l : list text) : list text :=
  match l with
  | [] :: r => drop_blank r
  | _ => l
  end.
Definition args_text (l : list text) : text := spaced (drop_blank l).

(** The serialised form of a command line with these parts. *)
Definition serialised (boot init : text) : outcome cerror bytes :=
  match boot, init with
  | [], [] => Ok []
  | [], _ => Err NoBootArgsInserted
  | _, _ => if in_dec N.eq_dec 0 (full_text boot init) then Err NullTerminator
            else Ok (utf8 (full_text boot init))
  end.

(** Keys and values. *)
Definition good_key (k : text) : Prop :=
  Forall printable k /\ ~ In 32 k /\ ~ In 61 k.

(** A double quote strictly inside: neither first nor last character. *)
Definition inner_quote (v : text) : Prop :=
  exists a x b y, v = (a :: x) ++ [34] ++ (b :: y).
(** Starts and ends with (two different) double quotes. *)
Definition quoted (v : text) : Prop := exists x, v = [34] ++ x ++ [34].
Definition good_value (v : text) : Prop :=
  Forall printable v /\ ~ inner_quote v /\ (In 32 v -> quoted v).

(** v1,v2,...,vn *)
Fixpoint comma_list (l : list text) : text :=
  match l with
  | [] => []
  | [x] => x
  | x :: r => x ++ txt "," ++ comma_list r
  end.

(** The error [insert] reports for a key / a value, in the documented order. *)
Inductive key_error : text -> cerror -> Prop :=
| ke_ascii k : ~ Forall printable k -> key_error k InvalidAscii
| ke_space k : Forall printable k -> In 32 k -> key_error k HasSpace
| ke_equals k : Forall printable k -> ~ In 32 k -> In 61 k -> key_error k HasEquals.

Inductive value_error : text -> cerror -> Prop :=
| ve_ascii v : ~ Forall printable v -> value_error v InvalidAscii
| ve_quote v : Forall printable v -> inner_quote v -> value_error v InvalidQuote
| ve_space v : Forall printable v -> ~ inner_quote v -> In 32 v -> ~ quoted v ->
    value_error v NoQuoteSpace.

(** ** The grammar of Linux's virtio_mmio.device parameter:
    <size>[KMG]@0x<base>:<irq>[:<id>], all of the text consumed. *)
Definition dec_digit (c : N) : option N :=
  if (48 <=? c) && (c <=? 57) then Some (c - 48) else None.
Definition hex_digit (c : N) : option N :=
  if (48 <=? c) && (c <=? 57) then Some (c - 48)
  else if (97 <=? c) && (c <=? 102) then Some (c - 87) else None.

(** Reads the longest run of digits; [n] is the value so far. *)
Fixpoint read_digits (digit : N -> option N) (base n : N) (s : text) : N * text :=
  match s with
  | [] => (n, [])
  | c :: r => match digit c with
              | Some d => read_digits digit base (n * base + d) r
              | None => (n, s)
              end
  end.
Definition read_number (digit : N -> option N) (base : N) (s : text) : option (N * text) :=
  match s with
  | [] => None
  | c :: _ => match digit c with Some _ => Some (read_digits digit base 0 s) | None => None end
  end.

Definition read_suffix (s : text) : N * text :=
  match s with
  | 71 :: r => (1073741824, r)   (* G *)
  | 77 :: r => (1048576, r)      (* M *)
  | 75 :: r => (1024, r)         (* K *)
  | _ => (1, s)
  end.

Definition parse_device (s : text) : option (N * N * N * option N) :=
  match read_number dec_digit 10 s with
  | None => None
  | Some (v, s1) =>
    let (mul, s2) := read_suffix s1 in
    match s2 with
    | 64 :: 48 :: 120 :: s3 =>          (* @0x *)
      match read_number hex_digit 16 s3 with
      | Some (base, 58 :: s4) =>        (* : *)
        match read_number dec_digit 10 s4 with
        | Some (irq, []) => Some (v * mul, base, irq, None)
        | Some (irq, 58 :: s5) =>
          match read_number dec_digit 10 s5 with
          | Some (id, []) => Some (v * mul, base, irq, Some id)
          | _ => None
          end
        | _ => None
        end
      | _ => None
      end
    | _ => None
    end
  end.

(** ** What an accepted call contributes. *)
Definition virtio_text (size base irq : N) (id : option N) (t : text) : Prop :=
  exists d, t = txt "virtio_mmio.device=" ++ d /\ parse_device d = Some (size, base, irq, id).

Inductive boot_arg : op -> text -> Prop :=
| ba_insert k v : boot_arg (OpInsert k v) (k ++ txt "=" ++ v)
| ba_multiple k vs : boot_arg (OpMultiple k vs) (k ++ txt "=" ++ comma_list vs)
| ba_str s t : trimmed_of s t -> boot_arg (OpStr s) t
| ba_virtio size base irq id t :
    virtio_text size base irq id t -> boot_arg (OpVirtio size base irq id) t.

Inductive init_arg : op -> text -> Prop :=
| ia_init s t : trimmed_of s t -> init_arg (OpInit s) t.

(** [accepted bld c os bs is c']: running the calls [os] from builder [c] ends in [c'], and the
    calls that returned Ok contributed boot arguments [bs] and init arguments [is], in order. *)
Inductive accepted (bld : build) : cmdline -> list op -> list text -> list text -> cmdline -> Prop :=
| acc_done c : accepted bld c [] [] [] c
| acc_rejected c o os bs is c1 e c' :
    run_op bld c o = (c1, Err e) -> accepted bld c1 os bs is c' ->
    accepted bld c (o :: os) bs is c'
| acc_boot c o os t bs is c1 c' :
    run_op bld c o = (c1, Ok tt) -> boot_arg o t -> accepted bld c1 os bs is c' ->
    accepted bld c (o :: os) (t :: bs) is c'
| acc_init c o os t bs is c1 c' :
    run_op bld c o = (c1, Ok tt) -> init_arg o t -> accepted bld c1 os bs is c' ->
    accepted bld c (o :: os) bs (t :: is) c'.

(** The calls that Rust's types allow: u64/u32 arguments of add_virtio_mmio_device. *)
Definition op_typed (o : op) : Prop :=
  match o with
  | OpVirtio size base irq id =>
      size < 2 ^ 64 /\ base < 2 ^ 64 /\ irq < 2 ^ 32 /\
      match id with Some i => i < 2 ^ 32 | None => True end
  | _ => True
  end.
(** [usize] capacity, and a [&str] no longer than [isize::MAX] bytes. *)
Definition ctor_typed (k : ctor) : Prop :=
  match k with
  | New cap => cap < 2 ^ 64
  | Parse raw cap => cap < 2 ^ 64 /\ lenN (utf8 raw) < 2 ^ 63
  end.

Definition ctor_cap (k : ctor) : N :=
  match k with New cap => cap | Parse _ cap => cap end.

(** A builder reachable by a constructor and any calls. *)
Definition reachable (bld : build) (c : cmdline) : Prop :=
  exists k c0 os, ctor_typed k /\ run_ctor k = Ok c0 /\ c = run_ops bld c0 os.

(** ** Splitting for try_from *)
Definition sep_at (s : text) (i : nat) : Prop := firstn 4 (skipn i s) = txt " -- ".
(** An even number of double quotes before position [i]. *)
Definition unquoted_at (s : text) (i : nat) : Prop :=
  Nat.even (count_occ N.eq_dec (firstn i s) 34) = true.
Definition splits_at (s : text) (i : nat) : Prop :=
  sep_at s i /\ unquoted_at s i /\
  forall j, (j < i)%nat -> sep_at s j -> ~ unquoted_at s j.
(** The two parts try_from must find. *)
Definition parsed_parts (raw boot init : text) : Prop :=
  (exists i, splits_at raw i /\ trimmed_of (firstn i raw) boot /\ trimmed_of (skipn (i + 4) raw) init)
  \/ ((forall i, sep_at raw i -> ~ unquoted_at raw i) /\ trimmed_of raw boot /\ init = []).

(** ** Canonical virtio_mmio device text *)
(** [t] is the numeral of [v]: it reads as [v] and has no superfluous leading zero. *)
Definition numeral (digit : N -> option N) (base v : N) (t : text) : Prop :=
  read_number digit base t = Some (v, []) /\ (forall r, t = 48 :: r -> r = []).

(** Size suffixes, largest first. *)
Definition suffixes : list (N * text) :=
  [ (1073741824, txt "G"); (1048576, txt "M"); (1024, txt "K"); (1, []) ].

(** <size>[KMG] with the largest suffix that divides the size. *)
Definition size_text (size : N) (t : text) : Prop :=
  exists mul suf v d, In (mul, suf) suffixes /\ v * mul = size /\ numeral dec_digit 10 v d /\
    t = d ++ suf /\
    (forall mul' suf', In (mul', suf') suffixes -> (mul' | size) -> mul' <= mul).

(** <size>[KMG]@0x<base>:<irq>[:<id>] *)
Definition device_argument (size base irq : N) (id : option N) (t : text) : Prop :=
  exists s b i rest, size_text size s /\ numeral hex_digit 16 base b /\ numeral dec_digit 10 irq i /\
    match id with
    | None => rest = []
    | Some n => exists d, numeral dec_digit 10 n d /\ rest = txt ":" ++ d
    end /\
    t = txt "virtio_mmio.device=" ++ s ++ txt "@0x" ++ b ++ txt ":" ++ i ++ rest.

(** ** The format documented for try_from *)
(** Every "--" of [s] is inside double quotes. *)
Definition dashes_quoted (s : text) : Prop :=
  forall i, firstn 2 (skipn i s) = txt "--" -> ~ unquoted_at s i.
(** Double quotes are balanced. *)
Definition quotes_balanced (s : text) : Prop := unquoted_at s (length s).

(** The parts a constructor starts with. *)
Definition ctor_parts (k : ctor) (boot init : text) : Prop :=
  match k with
  | New _ => boot = [] /\ init = []
  | Parse raw _ => parsed_parts raw boot init
  end.
