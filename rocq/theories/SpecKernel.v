(** * SpecKernel: how Linux reads its command line.

    Specification only, not code of /repo: [next_arg] (Linux lib/cmdline.c) and the loop of [parse_args]
    (kernel/params.c, the reader src/loader/mod.rs:227-229 refers to), on the characters before the terminating NUL.
    A parameter is a name and, if there is an equals sign, a value. *)
From Verif Require Import Base Text Cmdline SpecCmdline.

Definition param := (text * option text)%type.

(** Linux [isspace] (its ctype table also has 0xa0). *)
Definition kspace (c : N) : bool := ((9 <=? c) && (c <=? 13)) || (c =? 32) || (c =? 160).

Fixpoint skip_spaces (s : text) : text :=
  match s with
  | [] => []
  | c :: r => if kspace c then skip_spaces r else s
  end.

(** Up to the first space outside double quotes; [q]: inside quotes. *)
Fixpoint word (q : bool) (s : text) : text * text :=
  match s with
  | [] => ([], [])
  | c :: r =>
      if kspace c && negb q then ([], s)
      else let (w, rest) := word (if c =? 34 then negb q else q) r in (c :: w, rest)
  end.

(** Split at the first '='. *)
Fixpoint at_equals (s : text) : option (text * text) :=
  match s with
  | [] => None
  | c :: r => if c =? 61 then Some ([], r)
              else match at_equals r with Some (a, b) => Some (c :: a, b) | None => None end
  end.

(** Without a final double quote. *)
Definition drop_last_quote (s : text) : text :=
  if List.last s 0 =? 34 then removelast s else s.

Definition starts_with_quote (s : text) : bool := match s with c :: _ => c =? 34 | [] => false end.

(** [next_arg]: parameter, value, what follows.  An '=' in front of everything does not count. *)
Definition next_arg (s : text) : param * text :=
  let quoted := starts_with_quote s in
  let (w, rest) := word quoted (if quoted then tl s else s) in
  let clip t := if quoted then drop_last_quote t else t in
  let p := match w with
           | [] => ([], None)
           | c :: w' =>
               match at_equals w' with
               | None => (clip w, None)
               | Some (a, b) => (c :: a, Some (if starts_with_quote b then drop_last_quote (tl b) else clip b))
               end
           end in
  (p, rest).

Definition is_stop (p : param) : bool :=
  match snd p with
  | Some _ => false
  | None => if list_eq_dec N.eq_dec (fst p) (txt "--") then true else false
  end.

(** The loop of [parse_args]: all parameters, and if a lone "--" was met, what follows it. *)
Fixpoint params_of (fuel : nat) (s : text) : list param * option text :=
  match fuel with
  | O => ([], None)
  | S fuel' =>
      match skip_spaces s with
      | [] => ([], None)
      | s' =>
          let (p, rest) := next_arg s' in
          if is_stop p then ([], Some (skip_spaces rest))
          else let (ps, e) := params_of fuel' rest in (p :: ps, e)
      end
  end.
Definition kernel_reads (s : text) : list param * option text := params_of (S (length s)) s.

(** ** What the calls of a history contribute, as the kernel should see it. *)
(** A value without its enclosing double quotes. *)
Inductive bare : text -> text -> Prop :=
| bare_plain v : ~ In 34 v -> bare v v
| bare_quoted v : ~ In 34 v -> bare ([34] ++ v ++ [34]) v.

(** What the kernel reads from [t] alone, if [t] can stand next to other arguments: balanced quotes, no lone "--". *)
Definition stands_alone (t : text) (ps : list param) : Prop := quotes_balanced t /\ kernel_reads t = (ps, None).

Inductive contributes : op -> list param -> Prop :=
| co_insert k v b : k <> [] -> ~ In 34 k -> bare v b -> contributes (OpInsert k v) [(k, Some b)]
| co_multiple k vs : k <> [] -> ~ In 34 k -> (forall v, In v vs -> ~ In 34 v) -> contributes (OpMultiple k vs) [(k, Some (comma_list vs))]
| co_str s t ps : trimmed_of s t -> stands_alone t ps -> contributes (OpStr s) ps
| co_virtio size base irq id d : device_argument size base irq id (txt "virtio_mmio.device=" ++ d) ->
    contributes (OpVirtio size base irq id) [(txt "virtio_mmio.device", Some d)].

(** [tells bld c os ps is c']: running the calls [os] from [c] ends in [c']; those that returned Ok contributed the
    parameters [ps] and the init arguments [is], in order. *)
Inductive tells (bld : build) : cmdline -> list op -> list param -> list text -> cmdline -> Prop :=
| te_done c : tells bld c [] [] [] c
| te_rejected c o os ps is c1 e c' :
    run_op bld c o = (c1, Err e) -> tells bld c1 os ps is c' -> tells bld c (o :: os) ps is c'
| te_boot c o os p ps is c1 c' :
    run_op bld c o = (c1, Ok tt) -> contributes o p -> tells bld c1 os ps is c' -> tells bld c (o :: os) (p ++ ps) is c'
| te_init c s t os ps is c1 c' :
    run_op bld c (OpInit s) = (c1, Ok tt) -> trimmed_of s t -> tells bld c1 os ps is c' -> tells bld c (OpInit s :: os) ps (t :: is) c'.

(** Calls the kernel can be expected to understand: non-empty keys, no stray quotes, texts that stand alone. *)
Definition well_behaved (o : op) : Prop :=
  match o with
  | OpInsert k v => k <> [] /\ ~ In 34 k /\ exists b, bare v b
  | OpMultiple k vs => k <> [] /\ ~ In 34 k /\ forall v, In v vs -> ~ In 34 v
  | OpStr s => exists t ps, trimmed_of s t /\ stands_alone t ps
  | _ => True
  end.

(** The bytes of a text, as numbers. *)
Definition seen (t : text) : text := map n8 (utf8 t).

(** What Linux does with a command line: boot parameters, and arguments for init (read from the text after "--" by the
    same loop; init/main.c start_kernel, "Setting init args"). *)
Definition kernel_view (s : text) : list param * list param :=
  let (ps, e) := kernel_reads s in (ps, match e with Some t => fst (kernel_reads t) | None => [] end).
