(** * Utf8: src/cmdline/mod.rs once more, on UTF-8 bytes.

    A Rust [str] is a sequence of UTF-8 bytes.  Here the standard library functions that
    src/cmdline/mod.rs calls are modelled as std implements them, on bytes and byte indices, and
    the builder is written over them, function by function.  Slicing panics off a character
    boundary.  (Text.v and Cmdline.v have the same over lists of characters.) *)
From Verif Require Import Base Text Cmdline.

(** core::str::validations: [utf8_first_byte], [utf8_acc_cont_byte], [utf8_is_cont_byte]. *)
(** std, under [chars], src/cmdline/mod.rs:84, 96-98, 107. *)
Definition first_bits (x : byte) (width : N) : N := N.land (n8 x) (N.shiftr 127 width).
(** std, under [chars], src/cmdline/mod.rs:84, 96-98, 107. *)
Definition acc_cont (ch : N) (b : byte) : N := N.lor (N.shiftl ch 6) (N.land (n8 b) 63).
(** [(byte as i8) < -64] *)
(** std, under [chars], src/cmdline/mod.rs:84, 96-98, 107. *)
Definition is_cont (b : byte) : bool := (128 <=? n8 b) && (n8 b <? 192).

(** core::str::validations::next_code_point: the first character and the bytes after it.  Missing
    bytes (never in valid UTF-8) end the iteration here; std has undefined behaviour there. *)
(** std, under [chars], src/cmdline/mod.rs:84, 96-98, 107. *)
Definition next_char (s : bytes) : option (char * bytes) :=
  match s with
  | [] => None
  | x :: r =>
      if n8 x <? 128 then Some (n8 x, r)
      else match r with
           | [] => None
           | y :: r1 =>
               if n8 x <? 224 then Some (acc_cont (first_bits x 2) y, r1)
               else match r1 with
                    | [] => None
                    | z :: r2 =>
                        let y_z := acc_cont (N.land (n8 y) 63) z in
                        if n8 x <? 240 then Some (N.lor (N.shiftl (first_bits x 2) 12) y_z, r2)
                        else match r2 with
                             | [] => None
                             | w :: r3 =>
                                 Some (N.lor (N.shiftl (N.land (first_bits x 2) 7) 18) (acc_cont y_z w), r3)
                             end
                    end
           end
  end.

(** core::str::validations::next_code_point_reverse, on the reversed byte string. *)
(** std, under [chars], src/cmdline/mod.rs:84, 96-98, 107. *)
Definition prev_char (rs : bytes) : option (char * bytes) :=
  match rs with
  | [] => None
  | w :: r =>
      if n8 w <? 128 then Some (n8 w, r)
      else match r with
           | [] => None
           | z :: r1 =>
               if is_cont z then
                 match r1 with
                 | [] => None
                 | y :: r2 =>
                     if is_cont y then
                       match r2 with
                       | [] => None
                       | x :: r3 => Some (acc_cont (acc_cont (acc_cont (first_bits x 4) y) z) w, r3)
                       end
                     else Some (acc_cont (acc_cont (first_bits y 3) z) w, r2)
                 end
               else Some (acc_cont (first_bits z 2) w, r1)
           end
  end.

(** [str::chars().collect()]; the fuel is the number of bytes. *)
(** std, under [chars], src/cmdline/mod.rs:84, 96-98, 107. *)
Fixpoint chars_from (fuel : nat) (s : bytes) : text :=
  match fuel with
  | O => []
  | S f => match next_char s with Some (c, r) => c :: chars_from f r | None => [] end
  end.
(** std, under [chars], src/cmdline/mod.rs:84, 96-98, 107. *)
Definition chars (s : bytes) : text := chars_from (List.length s) s.

(** [str::chars().last()], which is [next_back]. *)
(** std, under [chars], src/cmdline/mod.rs:84, 96-98, 107. *)
Definition last_char (s : bytes) : option char := option_map fst (prev_char (rev s)).

(** [str::is_char_boundary]. *)
(** std, under the slices at src/cmdline/mod.rs:518-529. *)
Definition is_char_boundary (s : bytes) (i : N) : bool :=
  if i =? 0 then true
  else match nth_error s (N.to_nat i) with
       | None => i =? lenN s
       | Some b => negb (is_cont b)
       end.
(** [&s\[..i\]] and [&s\[i..\]]. *)
(** std, under the slices at src/cmdline/mod.rs:518-529. *)
Definition str_to {E} (s : bytes) (i : N) : outcome E bytes :=
  if is_char_boundary s i then Ok (firstn (N.to_nat i) s) else Panic SliceBounds.
(** std, under the slices at src/cmdline/mod.rs:518-529. *)
Definition str_from {E} (s : bytes) (i : N) : outcome E bytes :=
  if is_char_boundary s i then Ok (skipn (N.to_nat i) s) else Panic SliceBounds.

(** [str::trim], i.e. [trim_matches(char::is_whitespace)]: [next_reject] from the front,
    [next_reject_back] over what the front search has not consumed, then the bytes between. *)
(** std, under [trim], src/cmdline/mod.rs:268, 320, 532-533. *)
Fixpoint next_reject (fuel : nat) (i : N) (s : bytes) : option (N * N * bytes) :=
  match fuel with
  | O => None
  | S f =>
      match next_char s with
      | None => None
      | Some (c, r) =>
          let i' := i + (lenN s - lenN r) in
          if is_whitespace c then next_reject f i' r else Some (i, i', r)
      end
  end.
(** [j]: where the bytes still to be searched (given reversed) end. *)
(** std, under [trim], src/cmdline/mod.rs:268, 320, 532-533. *)
Fixpoint next_reject_back (fuel : nat) (j : N) (rs : bytes) : option N :=
  match fuel with
  | O => None
  | S f =>
      match prev_char rs with
      | None => None
      | Some (c, r) => if is_whitespace c then next_reject_back f (j - (lenN rs - lenN r)) r else Some j
      end
  end.
(** std, under [trim], src/cmdline/mod.rs:268, 320, 532-533. *)
Definition str_trim (s : bytes) : bytes :=
  match next_reject (List.length s) 0 s with
  | None => []
  | Some (i, b, r) =>
      let j := match next_reject_back (List.length r) (lenN s) (rev r) with Some j => j | None => b end in
      slice s i (j - i)
  end.

(** [str::match_indices] with a non-empty string pattern: byte positions of the non-overlapping
    occurrences, leftmost first. *)
(** std, under [match_indices], src/cmdline/mod.rs:517. *)
Fixpoint bytes_start (s p : bytes) : bool :=
  match p, s with
  | [], _ => true
  | _ :: _, [] => false
  | a :: p', b :: s' => (n8 a =? n8 b) && bytes_start s' p'
  end.
(** std, under [match_indices], src/cmdline/mod.rs:517. *)
Fixpoint byte_matches (pat s : bytes) (i : N) (skip : nat) : list N :=
  match s with
  | [] => []
  | _ :: r =>
      match skip with
      | S k => byte_matches pat r (i + 1) k
      | O => if bytes_start s pat then i :: byte_matches pat r (i + 1) (List.length pat - 1)
             else byte_matches pat r (i + 1) O
      end
  end.
(** [str::contains(char)] and [str::matches(char).count()] for an ASCII character: a search for
    its byte. *)
(** Called at src/cmdline/mod.rs:113-115, 127. *)
Definition has_byte (s : bytes) (c : N) : bool := existsb (fun b => n8 b =? c) s.
(** Called at src/cmdline/mod.rs:473. *)
Definition count_byte (s : bytes) (c : N) : N := lenN (filter (fun b => n8 b =? c) s).

(** ** The builder *)
(** src/cmdline/mod.rs:21-44; [MissingVal] carries a string. *)
Inductive u_error := Plain (e : cerror) | NoVal (key : bytes).
(** src/cmdline/mod.rs:146-150. *)
Record ucmdline := mkU { u_boot : bytes; u_init : bytes; u_cap : N }.
(** src/cmdline/mod.rs:17. *)
Definition SEP : bytes := utf8 (txt " -- ").

(** src/cmdline/mod.rs:83-132. *)
Definition u_valid_str (s : bytes) : outcome u_error unit :=
  if forallb valid_char (chars s) then Ok tt else Err (Plain InvalidAscii).
(** src/cmdline/mod.rs:91-101. *)
Definition u_is_quoted (s : bytes) : bool :=
  if lenN s <? 2 then false
  else match next_char s, last_char s with
       | Some (f, _), Some l => (f =? 34) && (l =? 34)
       | _, _ => false
       end.
(** src/cmdline/mod.rs:103-108. *)
Definition u_contains_double_quotes (s : bytes) : bool :=
  if lenN s <? 3 then false
  else existsb (N.eqb 34) (firstn (N.to_nat (lenN s - 2)) (skipn 1 (chars s))).
(** src/cmdline/mod.rs:110-120. *)
Definition u_valid_key (s : bytes) : outcome u_error unit :=
  if negb (forallb valid_char (chars s)) then Err (Plain InvalidAscii)
  else if has_byte s 32 then Err (Plain HasSpace)
  else if has_byte s 61 then Err (Plain HasEquals)
  else Ok tt.
(** src/cmdline/mod.rs:122-132. *)
Definition u_valid_value (s : bytes) : outcome u_error unit :=
  if negb (forallb valid_char (chars s)) then Err (Plain InvalidAscii)
  else if u_contains_double_quotes s then Err (Plain InvalidQuote)
  else if has_byte s 32 && negb (u_is_quoted s) then Err (Plain NoQuoteSpace)
  else Ok tt.

(** Called at src/cmdline/mod.rs:230, 276, 288, 329, 344, 358, 385-389, 539. *)
Definition empty (s : bytes) : bool := match s with [] => true | _ => false end.
(** src/cmdline/mod.rs:166-176. *)
Definition u_new (cap : N) : outcome u_error ucmdline :=
  if cap =? 0 then Err (Plain InvalidCapacity) else Ok (mkU [] [] cap).
(** src/cmdline/mod.rs:353-363. *)
Definition u_size (bld : build) (c : ucmdline) : outcome u_error N :=
  obind (uadd bld (lenN (u_boot c)) 1) (fun n =>
  if empty (u_init c) then Ok n
  else obind (uadd bld (lenN SEP) (lenN (u_init c))) (fun t => uadd bld n t)).

(** The methods of src/cmdline/mod.rs:194-452 take [&mut self] and return [Result<()>]. *)
Definition ures := (ucmdline * outcome u_error unit)%type.
(** The [?] of src/cmdline/mod.rs:195-448. *)
Definition utry {T} (c : ucmdline) (x : outcome u_error T) (k : T -> ures) : ures :=
  match x with Ok a => k a | Err e => (c, Err e) | Panic p => (c, Panic p) end.

(** src/cmdline/mod.rs:265-295. *)
Definition u_insert_str (bld : build) (c : ucmdline) (slug : bytes) : ures :=
  let s := str_trim slug in
  utry c (u_valid_str s) (fun _ =>
  utry c (u_size bld c) (fun size0 =>
  utry c (if empty (u_boot c) then Ok size0 else ok_or (checked_add size0 1) (Plain TooLarge)) (fun size1 =>
  utry c (ok_or (checked_add size1 (lenN s)) (Plain TooLarge)) (fun size2 =>
  if u_cap c <? size2 then (c, Err (Plain TooLarge))
  else
    let boot := if empty (u_boot c) then u_boot c else u_boot c ++ [b8 32] in
    (mkU (boot ++ s) (u_init c) (u_cap c), Ok tt))))).
(** src/cmdline/mod.rs:317-351. *)
Definition u_insert_init_args (bld : build) (c : ucmdline) (slug : bytes) : ures :=
  let s := str_trim slug in
  utry c (u_valid_str s) (fun _ =>
  utry c (u_size bld c) (fun size0 =>
  utry c (ok_or (checked_add size0 (if empty (u_init c) then lenN SEP else 1)) (Plain TooLarge)) (fun size1 =>
  utry c (ok_or (checked_add size1 (lenN s)) (Plain TooLarge)) (fun size2 =>
  if u_cap c <? size2 then (c, Err (Plain TooLarge))
  else
    let init := if empty (u_init c) then u_init c else u_init c ++ [b8 32] in
    (mkU (u_boot c) (init ++ s) (u_cap c), Ok tt))))).
(** src/cmdline/mod.rs:194-204. *)
Definition u_insert (bld : build) (c : ucmdline) (k v : bytes) : ures :=
  utry c (u_valid_key k) (fun _ =>
  utry c (u_valid_value v) (fun _ =>
  u_insert_str bld c (k ++ [b8 61] ++ v))).
(** src/cmdline/mod.rs:226-247. *)
Fixpoint u_collect (vals : list bytes) : outcome u_error (list bytes) :=
  match vals with
  | [] => Ok []
  | v :: r => obind (u_valid_value v) (fun _ => obind (u_collect r) (fun l => Ok (v :: l)))
  end.
(** Called at src/cmdline/mod.rs:243. *)
Fixpoint u_join (sep : bytes) (l : list bytes) : bytes :=
  match l with [] => [] | [x] => x | x :: r => x ++ sep ++ u_join sep r end.
(** src/cmdline/mod.rs:226-247. *)
Definition u_insert_multiple (bld : build) (c : ucmdline) (k : bytes) (vals : list bytes) : ures :=
  utry c (u_valid_key k) (fun _ =>
  match vals with
  | [] => (c, Err (NoVal k))
  | _ => utry c (u_collect vals) (fun l => u_insert_str bld c (k ++ [b8 61] ++ u_join [b8 44] l))
  end).
(** src/cmdline/mod.rs:431-452; the formatted text is ASCII. *)
Definition u_add_virtio_mmio_device (bld : build) (c : ucmdline) (size baseaddr irq : N) (id : option N) : ures :=
  if size =? 0 then (c, Err (Plain MmioSize))
  else
    let device := utf8 (txt "virtio_mmio.device=") ++ utf8 (guestusize_to_str size) ++ utf8 (txt "@0x") ++
                  utf8 (fmt_hex baseaddr) ++ utf8 (txt ":") ++ utf8 (fmt_dec irq) in
    u_insert_str bld c (match id with
                        | Some id => device ++ utf8 (txt ":") ++ utf8 (fmt_dec id)
                        | None => device
                        end).
(** src/cmdline/mod.rs:384-398. *)
Definition u_as_cstring (c : ucmdline) : outcome u_error bytes :=
  let cstring b := match cstring_new b with Ok x => Ok x | Err _ => Err (Plain NullTerminator) | Panic p => Panic p end in
  if empty (u_boot c) && empty (u_init c) then cstring []
  else if empty (u_boot c) then Err (Plain NoBootArgsInserted)
  else if empty (u_init c) then cstring (u_boot c)
  else cstring (u_boot c ++ SEP ++ u_init c).

(** src/cmdline/mod.rs:472-474. *)
Definition u_outside_quotes (slug : bytes) : bool := count_byte slug 34 mod 2 =? 0.
(** [find] with a predicate that slices: the first byte index for which it is true; stops at a
    panic. *)
(** src/cmdline/mod.rs:516-520. *)
Fixpoint u_find (raw : bytes) (l : list N) : outcome u_error (option N) :=
  match l with
  | [] => Ok None
  | i :: r => obind (str_to raw i) (fun pre => if u_outside_quotes pre then Ok (Some i) else u_find raw r)
  end.
(** src/cmdline/mod.rs:503-558. *)
Definition u_try_from (bld : build) (raw : bytes) (cap : N) : outcome u_error ucmdline :=
  if cap =? 0 then Err (Plain InvalidCapacity)
  else
    obind (u_find raw (byte_matches SEP raw 0 O)) (fun found =>
    obind (match found with
           | None => Ok (raw, [])
           | Some i => obind (str_to raw i) (fun boot =>
                       obind (uadd bld i (lenN SEP)) (fun j =>
                       obind (str_from raw j) (fun init => Ok (boot, init))))
           end) (fun parts =>
    let boot := str_trim (fst parts) in
    let init := str_trim (snd parts) in
    obind (ok_or (checked_add (lenN boot) 1) (Plain TooLarge)) (fun size0 =>
    obind (if empty init then Ok size0
           else obind (ok_or (checked_add size0 (lenN SEP)) (Plain TooLarge)) (fun size1 =>
                ok_or (checked_add size1 (lenN init)) (Plain TooLarge))) (fun size2 =>
    if cap <? size2 then Err (Plain InvalidCapacity)
    else Ok (mkU boot init cap))))).

(** Calls with string arguments given as bytes. *)
(** The public builder calls of src/cmdline/mod.rs:194-452. *)
Inductive u_op :=
| UInsert (k v : bytes)
| UMultiple (k : bytes) (vs : list bytes)
| UStr (s : bytes)
| UInit (s : bytes)
| UVirtio (size base irq : N) (id : option N).
(** The public builder calls of src/cmdline/mod.rs:194-452. *)
Definition u_run (bld : build) (c : ucmdline) (o : u_op) : ures :=
  match o with
  | UInsert k v => u_insert bld c k v
  | UMultiple k vs => u_insert_multiple bld c k vs
  | UStr s => u_insert_str bld c s
  | UInit s => u_insert_init_args bld c s
  | UVirtio size base irq id => u_add_virtio_mmio_device bld c size base irq id
  end.
