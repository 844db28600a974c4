(** * SpecDriver: how Linux's virtio-mmio driver reads its [virtio_mmio.device] parameters.

    Specification only, not code of /repo: [vm_cmdline_set] (drivers/virtio/virtio_mmio.c), with [memparse]
    (lib/cmdline.c), [simple_strtoull] (lib/vsprintf.c, lib/kstrtox.c) and the conversions of [sscanf] (lib/vsprintf.c)
    it uses: sscanf(str, "@%lli:%u%n:%d%n", &base, &irq, &consumed, &vm_cmdline_id, &consumed).  Unsigned 64-bit
    arithmetic wraps; an [int] takes the low 32 bits. *)
From Coq Require Import ZArith.
From Verif Require Import Base Text Cmdline SpecCmdline SpecKernel.

Definition isdigit (c : N) : bool := (48 <=? c) && (c <=? 57).

(** The value of a digit ([_tolower] sets bit 5), if it is one in this base. *)
Definition kdigit (base c : N) : option N :=
  let lc := N.lor c 32 in
  let v := if isdigit c then Some (c - 48) else if (97 <=? lc) && (lc <=? 102) then Some (lc - 87) else None in
  match v with Some d => if d <? base then Some d else None | None => None end.

(** [_parse_integer]: as many digits as there are; 64 bits are kept. *)
Fixpoint kdigits (base acc : N) (s : text) : N * text :=
  match s with
  | [] => (acc, [])
  | c :: r => match kdigit base c with
              | Some d => kdigits base ((acc * base + d) mod 2 ^ 64) r
              | None => (acc, s)
              end
  end.

(** [_parse_integer_fixup_radix] with base 0: "0x" and a hexadecimal digit, "0", or decimal. *)
Definition radix (s : text) : N * text :=
  match s with
  | 48 :: r =>
      match r with
      | x :: h :: _ =>
          if (N.lor x 32 =? 120) && match kdigit 16 h with Some _ => true | None => false end then (16, tl r) else (8, s)
      | _ => (8, s)
      end
  | _ => (10, s)
  end.
Definition strtoull (s : text) : N * text := let (base, r) := radix s in kdigits base 0 r.

(** [memparse]: a number and an optional K, M, G, T, P or E in either case. *)
Definition suffix_bits (c : N) : option N :=
  let lc := N.lor c 32 in
  if lc =? 107 then Some 10 else if lc =? 109 then Some 20 else if lc =? 103 then Some 30
  else if lc =? 116 then Some 40 else if lc =? 112 then Some 50 else if lc =? 101 then Some 60 else None.
Definition memparse (s : text) : N * text :=
  let (v, r) := strtoull s in
  match r with
  | c :: r' => match suffix_bits c with Some k => ((v * 2 ^ k) mod 2 ^ 64, r') | None => (v, r) end
  | [] => (v, r)
  end.

(** An integer conversion: blanks are skipped; [sign]: a minus sign may come first; the result keeps 64 bits. *)
Definition conversion (sign : bool) (number : text -> N * text) (s : text) : option (N * text) :=
  match skip_spaces s with
  | 45 :: c :: r =>
      if sign && isdigit c then let (v, rest) := number (c :: r) in Some ((2 ^ 64 - v) mod 2 ^ 64, rest) else None
  | c :: r => if isdigit c then Some (number (c :: r)) else None
  | [] => None
  end.
Definition conv_lli := conversion true strtoull.
Definition conv_u := conversion false (kdigits 10 0).
Definition conv_d := conversion true (kdigits 10 0).

(** The low 32 bits as a C [int]. *)
Definition int_of (n : N) : Z :=
  let v := n mod 2 ^ 32 in if v <? 2 ^ 31 then Z.of_N v else Z.of_N v - 2 ^ 32.
(** [i++] of a C [int] (Linux is built with wrapping arithmetic). *)
Definition next_int (i : Z) : Z := if (i =? 2 ^ 31 - 1)%Z then (- 2 ^ 31)%Z else (i + 1)%Z.

(** What [sscanf] finds: the base address and the interrupt, if both are there, the id, if it is there, and what is left
    at the last [%n] that was reached. *)
Definition scan (s : text) : option (N * N * option Z * text) :=
  match s with
  | 64 :: s1 =>                                          (* @ *)
      match conv_lli s1 with
      | Some (base, 58 :: s2) =>                         (* : *)
          match conv_u s2 with
          | Some (irq, s3) =>
              match s3 with
              | 58 :: s4 =>
                  match conv_d s4 with
                  | Some (id, s5) => Some (base, irq mod 2 ^ 32, Some (int_of id), s5)
                  | None => Some (base, irq mod 2 ^ 32, None, s3)
                  end
              | _ => Some (base, irq mod 2 ^ 32, None, s3)
              end
          | None => None
          end
      | _ => None
      end
  | _ => None
  end.

(** A platform device: registers from [reg_start] to [reg_end], interrupt, id. *)
Record device := mkDevice { reg_start : N; reg_end : N; interrupt : N; device_id : Z }.

(** [vm_cmdline_set] with the driver's counter [next]: the new counter, and the device unless the parameter is invalid. *)
Definition vm_cmdline_set (next : Z) (value : text) : Z * option device :=
  let (size, str) := memparse value in
  match scan str with
  | None => (next, None)
  | Some (base, irq, id, rest) =>
      let n := match id with Some i => i | None => next end in
      match rest with
      | [] => if irq =? 0 then (n, None)
              else (next_int n, Some (mkDevice base ((base + size + (2 ^ 64 - 1)) mod 2 ^ 64) irq n))
      | _ => (n, None)
      end
  end.

(** [parameq]: minus and underscore are the same in parameter names. *)
Definition plain_name (s : text) : text := map (fun c => if c =? 45 then 95 else c) s.
Definition names_driver (s : text) : Prop := plain_name s = txt "virtio_mmio.device".
Definition is_driver (s : text) : bool := if list_eq_dec N.eq_dec (plain_name s) (txt "virtio_mmio.device") then true else false.

(** The devices Linux creates from its parameters; one without a value is refused. *)
Fixpoint devices_from (next : Z) (ps : list param) : list device :=
  match ps with
  | [] => []
  | (name, value) :: r =>
      if is_driver name then
        match value with
        | Some v => match vm_cmdline_set next v with
                    | (n, Some d) => d :: devices_from n r
                    | (n, None) => devices_from n r
                    end
        | None => devices_from next r
        end
      else devices_from next r
  end.
Definition linux_devices (command_line : text) : list device := devices_from 0 (fst (kernel_reads command_line)).

(** ** What the VMM asked for *)
(** Size, base address, interrupt, id, as given to [add_virtio_mmio_device]. *)
Definition request := (N * N * N * option N)%type.
Definition request_typed (q : request) : Prop :=
  match q with (size, base, irq, id) => size < 2 ^ 64 /\ base < 2 ^ 64 /\ irq < 2 ^ 32 /\ match id with Some i => i < 2 ^ 32 | None => True end end.
(** Inside the address space, with an interrupt, and an id that is a positive [int] with a successor. *)
Definition sensible (q : request) : Prop :=
  match q with (size, base, irq, id) =>
    0 < size < 2 ^ 64 /\ base + size <= 2 ^ 64 /\ 0 < irq < 2 ^ 32 /\ match id with Some i => i < 2 ^ 31 - 1 | None => True end end.

(** The devices a VMM expects: each occupies [size] bytes from [base]; ids count up from the last one given, from 0 at first. *)
Fixpoint expected (next : N) (qs : list request) : list device :=
  match qs with
  | [] => []
  | (size, base, irq, id) :: r =>
      let n := match id with Some i => i | None => next end in
      mkDevice base (base + size - 1) irq (Z.of_N n) :: expected (n + 1) r
  end.
(** What Linux makes of requests that need not be sensible: without an interrupt there is no device, an id is taken as a C [int], the
    last register's address wraps. *)
Fixpoint created (next : Z) (qs : list request) : list device :=
  match qs with
  | [] => []
  | (size, base, irq, id) :: r =>
      let n := match id with Some i => int_of i | None => next end in
      if irq =? 0 then created n r
      else mkDevice base ((base + size + (2 ^ 64 - 1)) mod 2 ^ 64) irq n :: created (next_int n) r
  end.
(** The ids stay below 2^31 - 1. *)
Fixpoint ids_fit (next : N) (qs : list request) : Prop :=
  match qs with
  | [] => True
  | (_, _, _, id) :: r => let n := match id with Some i => i | None => next end in n < 2 ^ 31 - 1 /\ ids_fit (n + 1) r
  end.

(** [adds bld c os qs c']: the calls [os] take the builder from [c] to [c'], the devices accepted are [qs], in order, and no other
    call contributes a parameter of the driver's name. *)
Inductive adds (bld : build) : cmdline -> list op -> list request -> cmdline -> Prop :=
| ad_done c : adds bld c [] [] c
| ad_rejected c o os qs c1 e c' : run_op bld c o = (c1, Err e) -> adds bld c1 os qs c' -> adds bld c (o :: os) qs c'
| ad_device c size base irq id os qs c1 c' :
    run_op bld c (OpVirtio size base irq id) = (c1, Ok tt) -> adds bld c1 os qs c' ->
    adds bld c (OpVirtio size base irq id :: os) ((size, base, irq, id) :: qs) c'
| ad_other c o os p qs c1 c' :
    run_op bld c o = (c1, Ok tt) -> contributes o p -> (forall x, In x p -> ~ names_driver (fst x)) -> adds bld c1 os qs c' ->
    adds bld c (o :: os) qs c'
| ad_init c s t os qs c1 c' :
    run_op bld c (OpInit s) = (c1, Ok tt) -> trimmed_of s t -> adds bld c1 os qs c' -> adds bld c (OpInit s :: os) qs c'.

(** A call the kernel can be expected to understand and that is not about this driver (unless it adds a device). *)
Definition no_rival (o : op) : Prop :=
  match o with
  | OpVirtio _ _ _ _ => True
  | _ => forall p, contributes o p -> forall x, In x p -> ~ names_driver (fst x)
  end.
