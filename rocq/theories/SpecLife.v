(** * SpecLife: from a constructor call to guest memory, as rules.

    The whole life of a command line and of boot parameters: made, changed by any calls, written to
    the guest.  Only rules of the other specifications are used. *)
From Verif Require Import Base Mem SpecMem Text Cmdline SpecCmdline Loader BootParams SpecBoot Configurators SpecVmm
  SpecHistory SpecDecide SpecParams SpecEffect.

(** ** Command line: constructed by [k], changed by [os], loaded at [addr] into [m]. *)
Inductive line_story :=
| NoLine (e : cerror)
| LineLoaded (results : list (outcome cerror unit)) (report : outcome lerror unit).

(** What is reported for the text, and the memory afterwards. *)
Inductive text_says (addr : N) (m : gmem) (t : outcome cerror bytes) : outcome lerror unit -> gmem -> Prop :=
| ts_unfit e m' : t = Err e -> mem_same m m' -> text_says addr m t (Err InvalidCommandLine) m'
| ts_past s m' : t = Ok s -> ~ reaches m (addr + lenN s) -> mem_same m m' ->
    text_says addr m t (Err CommandLineOverflow) m'
| ts_hole s m' : t = Ok s -> reaches m (addr + lenN s) -> ~ range_backed m addr (lenN s + 1) ->
    poured m addr (s ++ [x00]) m' -> text_says addr m t (Err CommandLineCopy) m'
| ts_loaded s m' : t = Ok s -> range_backed m addr (lenN s + 1) -> mem_is_overlay m m' [(addr, s ++ [x00])] ->
    text_says addr m t (Ok tt) m'.

Inductive line_life (k : ctor) (os : list op) (addr : N) (m : gmem) : line_story -> gmem -> Prop :=
| ll_refused e m' : ctor_says k (Err e) -> mem_same m m' -> line_life k os addr m (NoLine e) m'
| ll_built boot0 init0 rs boot init o m' :
    ctor_says k (Ok (boot0, init0)) -> calls_say (ctor_cap k) boot0 init0 os rs boot init ->
    text_says addr m (serialised boot init) o m' -> line_life k os addr m (LineLoaded rs o) m'.

(** ** Boot parameters: a new value with header [h] at [a], changed by [cs], written by a configurator. *)
Inductive protocol := Linux | Fdt | Pvh.
Definition write_of (q : protocol) (p : boot_info) : task :=
  match q with Linux => WriteLinux p | Fdt => WriteFdt p | Pvh => WritePvh p end.
Inductive params_story :=
| AbortedAfter (replies : list reply)
| Wrote (replies : list reply) (report : outcome berror unit).

Inductive params_life (be : backend) (h : bytes) (a : N) (cs : list bcall) (q : protocol) (m : gmem) : params_story -> gmem -> Prop :=
| pl_aborted rs m' : bcalls_say (mkBoot h a None None None None) cs rs None -> mem_same m m' ->
    params_life be h a cs q m (AbortedAfter rs) m'
| pl_written rs p o pieces m' : bcalls_say (mkBoot h a None None None None) cs rs (Some p) ->
    says be m (write_of q p) (Written o) -> tried m (write_of q p) (Written o) pieces -> poured_all m pieces m' ->
    params_life be h a cs q m (Wrote rs o) m'.
