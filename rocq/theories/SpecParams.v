(** * SpecParams: building boot parameters, as rules.

    The documentation of [set_sections], [add_section], [set_modules] and [add_module] as a list
    of situations; no function of the model is used. *)
From Verif Require Import Base Mem BootParams SpecBoot.

(** What a call reports: the element's address, an error, or the program aborts. *)
Inductive reply := Added (a : N) | Refused (e : berror) | Aborted.

(** [add_says v start e addr r v' start']: adding the element [e], at address [addr] if given, to a
    list holding [v] and starting at [start], if known. *)
Inductive add_says (v : bytes) (start : option N) (e : bytes) (addr : option N) : reply -> bytes -> option N -> Prop :=
| add_nowhere : start = None -> addr = None ->
    add_says v start e addr (Refused MissingStartAddress) v None
| add_overflow s : start_with start addr = Some s -> 2 ^ 64 <= s + lenN v ->
    add_says v start e addr (Refused BOverflow) v (Some s)
| add_before s a : start_with start addr = Some s -> s + lenN v < 2 ^ 64 -> addr = Some a -> a < s ->
    add_says v start e addr (Refused InvalidAddress) v (Some s)
| add_end s v' : start_with start addr = Some s -> s + lenN v < 2 ^ 64 -> addr = None ->
    lenN v + lenN e < 2 ^ 63 -> v' = v ++ e ->
    add_says v start e addr (Added (s + lenN v)) v' (Some s)
| add_at s a v' : start_with start addr = Some s -> s + lenN v < 2 ^ 64 -> addr = Some a -> s <= a ->
    a - s + lenN e < 2 ^ 63 -> placed v (a - s) e v' ->
    add_says v start e addr (Added a) v' (Some s)
| add_huge_end s : start_with start addr = Some s -> s + lenN v < 2 ^ 64 -> addr = None ->
    2 ^ 63 <= lenN v + lenN e -> add_says v start e addr Aborted v (Some s)
| add_huge_at s a : start_with start addr = Some s -> s + lenN v < 2 ^ 64 -> addr = Some a -> s <= a ->
    2 ^ 63 <= a - s + lenN e -> add_says v start e addr Aborted v (Some s).

(** One call on boot parameters. *)
Inductive bcall_says (p : boot_info) : bcall -> reply -> boot_info -> Prop :=
| says_set_sections es a :
    bcall_says p (BSet Sections es a) (Added a)
      (mkBoot (header p) (header_start p) (Some (concat es)) (Some a) (modules p) (modules_start p))
| says_set_modules es a :
    bcall_says p (BSet Modules es a) (Added a)
      (mkBoot (header p) (header_start p) (sections p) (sections_start p) (Some (concat es)) (Some a))
| says_add_section e addr r v s : add_says (contents (sections p)) (sections_start p) e addr r v s ->
    bcall_says p (BAdd Sections e addr) r
      (mkBoot (header p) (header_start p) (Some v) s (modules p) (modules_start p))
| says_add_module e addr r v s : add_says (contents (modules p)) (modules_start p) e addr r v s ->
    bcall_says p (BAdd Modules e addr) r
      (mkBoot (header p) (header_start p) (sections p) (sections_start p) (Some v) s).

(** All calls up to the first that aborts, with the parameters at the end ([None]: aborted). *)
Inductive bcalls_say (p : boot_info) : list bcall -> list reply -> option boot_info -> Prop :=
| bsay_done : bcalls_say p [] [] (Some p)
| bsay_aborted c cs p' : bcall_says p c Aborted p' -> bcalls_say p (c :: cs) [Aborted] None
| bsay_call c cs r rs p' fin : bcall_says p c r p' -> r <> Aborted -> bcalls_say p' cs rs fin ->
    bcalls_say p (c :: cs) (r :: rs) fin.
