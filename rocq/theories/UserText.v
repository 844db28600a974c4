(** * UserText: the command line builder on texts supplied by user code.

    [insert], [insert_multiple], [insert_str] and [insert_init_args] are generic in [T: AsRef<str>]
    (src/cmdline/mod.rs:194, 226, 265, 317): [as_ref] is code of the caller.  It may answer
    differently each time it is asked (interior mutability, state shared between values) and it
    may panic.  In Cmdline.v a text is just a text. *)
From Verif Require Import Base Text Cmdline.

Section User.
(** [W]: the state user code works on.  [T]: the texts.  [as_ref w x]: new state, and the [&str] or,
    for a panic, nothing. *)
Context {W T : Type} (as_ref : W -> T -> W * option text).

(** State, builder and result after a call; no result when user code panicked. *)
(** The builder calls of src/cmdline/mod.rs:194-351, generic in [T: AsRef<str>]. *)
Definition ures := (W * cmdline * option (outcome cerror unit))%type.

(** src/cmdline/mod.rs:265-268; the rest is [insert_str] on the text got. *)
Definition u_str (bld : build) (w : W) (c : cmdline) (slug : T) : ures :=
  match as_ref w slug with
  | (w1, None) => (w1, c, None)
  | (w1, Some s) => let (c', o) := insert_str bld c s in (w1, c', Some o)
  end.
(** src/cmdline/mod.rs:317-320. *)
Definition u_init (bld : build) (w : W) (c : cmdline) (slug : T) : ures :=
  match as_ref w slug with
  | (w1, None) => (w1, c, None)
  | (w1, Some s) => let (c', o) := insert_init_args bld c s in (w1, c', Some o)
  end.
(** src/cmdline/mod.rs:194-204. *)
Definition u_insert (bld : build) (w : W) (c : cmdline) (key val : T) : ures :=
  match as_ref w key with
  | (w1, None) => (w1, c, None)
  | (w1, Some k) =>
      match as_ref w1 val with
      | (w2, None) => (w2, c, None)
      | (w2, Some v) =>
          let (c', o) := ctry c (valid_key k) (fun _ => ctry c (valid_value v) (fun _ => insert_str bld c (k ++ [61] ++ v))) in
          (w2, c', Some o)
      end
  end.
(** src/cmdline/mod.rs:237-243: [as_ref] is called to check a value, and again to use it. *)
Fixpoint u_collect (w : W) (vals : list T) : W * option (outcome cerror (list text)) :=
  match vals with
  | [] => (w, Some (Ok []))
  | v :: r =>
      match as_ref w v with
      | (w1, None) => (w1, None)
      | (w1, Some s) =>
          match valid_value s with
          | Ok _ =>
              match as_ref w1 v with
              | (w2, None) => (w2, None)
              | (w2, Some t) =>
                  match u_collect w2 r with
                  | (w3, Some (Ok l)) => (w3, Some (Ok (t :: l)))
                  | x => x
                  end
              end
          | Err e => (w1, Some (Err e))
          | Panic p => (w1, Some (Panic p))
          end
      end
  end.
(** src/cmdline/mod.rs:226-247. *)
Definition u_multiple (bld : build) (w : W) (c : cmdline) (key : T) (vals : list T) : ures :=
  match as_ref w key with
  | (w1, None) => (w1, c, None)
  | (w1, Some k) =>
      match valid_key k with
      | Ok _ =>
          match vals with
          | [] => (w1, c, Some (Err (MissingVal k)))
          | _ =>
              match u_collect w1 vals with
              | (w2, None) => (w2, c, None)
              | (w2, Some (Ok l)) => let (c', o) := insert_str bld c (k ++ [61] ++ join [44] l) in (w2, c', Some o)
              | (w2, Some (Err e)) => (w2, c, Some (Err e))
              | (w2, Some (Panic p)) => (w2, c, Some (Panic p))
              end
          end
      | Err e => (w1, c, Some (Err e))
      | Panic p => (w1, c, Some (Panic p))
      end
  end.

(** Calls. *)
(** The builder calls of src/cmdline/mod.rs:194-351, generic in [T: AsRef<str>]. *)
Inductive uop :=
| UInsert (key val : T)
| UMultiple (key : T) (vals : list T)
| UStr (slug : T)
| UInit (slug : T)
| UVirtio (size base irq : N) (id : option N).
(** The builder calls of src/cmdline/mod.rs:194-351, generic in [T: AsRef<str>]. *)
Definition run_uop (bld : build) (w : W) (c : cmdline) (o : uop) : ures :=
  match o with
  | UInsert k v => u_insert bld w c k v
  | UMultiple k vs => u_multiple bld w c k vs
  | UStr s => u_str bld w c s
  | UInit s => u_init bld w c s
  | UVirtio size base irq id => let (c', r) := add_virtio_mmio_device bld c size base irq id in (w, c', Some r)
  end.
(** A history.  It goes on after errors, and after panics of user code (caught by the caller). *)
(** The builder calls of src/cmdline/mod.rs:194-351, generic in [T: AsRef<str>]. *)
Fixpoint run_uops (bld : build) (w : W) (c : cmdline) (os : list uop) : W * cmdline :=
  match os with
  | [] => (w, c)
  | o :: r => match run_uop bld w c o with (w1, c1, _) => run_uops bld w1 c1 r end
  end.
End User.
