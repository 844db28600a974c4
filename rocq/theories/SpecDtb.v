(** * SpecDtb: device trees, their flattened form, and what Linux takes from one in guest memory.

    Specification only, not code of /repo.  The format is that of the Devicetree Specification (version 17 blobs); the reader follows
    Linux: arch/arm64/mm/fixmap.c (fixmap_remap_fdt), scripts/dtc/libfdt, drivers/of/fdt.c (early_init_dt_scan_root, _chosen, _memory). *)
From Verif Require Import Base Mem Text Pe SpecGuest.
Local Open Scope list_scope.

(** ** Trees *)
Inductive tree := Node (name : bytes) (props : list (bytes * bytes)) (children : list tree).

(** Big-endian numbers. *)
Fixpoint be_num (l : bytes) : N := match l with [] => 0 | b :: r => n8 b * 256 ^ N.of_nat (length r) + be_num r end.
Definition be32 (v : N) : bytes := rev (le_enc 4 v).
Definition be64 (v : N) : bytes := rev (le_enc 8 v).

(** Zero bytes up to the next multiple of 4. *)
Definition fill (n : N) : N := (4 - n mod 4) mod 4.

(** ** The flattened form, as a relation: whatever program wrote the blob *)
(** [strs] has the NUL-terminated [name] at offset [o]. *)
Definition name_at (strs : bytes) (o : N) (name : bytes) : Prop :=
  ~ In x00 name /\ exists before after, strs = before ++ name ++ [x00] ++ after /\ lenN before = o.

(** The contents of a node up to and with its end mark: properties, then nodes inside; "nop" marks anywhere. *)
Inductive flat (strs : bytes) : list (bytes * bytes) -> list tree -> bytes -> Prop :=
| flat_end : flat strs [] [] (be32 2)
| flat_nop ps ts l : flat strs ps ts l -> flat strs ps ts (be32 4 ++ l)
| flat_prop name v o ps ts pad l :
    name_at strs o name -> o < 2 ^ 32 -> lenN v < 2 ^ 32 -> lenN pad = fill (lenN v) -> flat strs ps ts l ->
    flat strs ((name, v) :: ps) ts (be32 3 ++ be32 (lenN v) ++ be32 o ++ v ++ pad ++ l)
| flat_node name ps ts pad l ps' ts' l' :
    ~ In x00 name -> lenN pad = fill (lenN name + 1) -> flat strs ps ts l -> flat strs ps' ts' l' ->
    flat strs ps' (Node name ps ts :: ts') (be32 1 ++ name ++ [x00] ++ pad ++ l ++ l').

(** A blob [f] for the tree [t]: header (magic, total size, offset of the structure, of the strings), structure block, strings block.
    Anything else may be anywhere between and behind them. *)
Definition field (f : bytes) (o : N) : N := be_num (firstn 4 (skipn (N.to_nat o) f)).
Definition blob (f : bytes) (t : tree) : Prop :=
  match t with Node name ps ts =>
    name = [] /\ field f 0 = 0xd00dfeed /\ field f 4 <= lenN f /\ 40 <= field f 4 /\
    exists strs structure mid,
      flat strs ps ts structure /\
      (exists rest, firstn (N.to_nat (field f 4)) f = mid ++ be32 1 ++ zeros 4 ++ structure ++ be32 9 ++ rest) /\ lenN mid = field f 8 /\
      (exists before rest, firstn (N.to_nat (field f 4)) f = before ++ strs ++ rest /\ lenN before = field f 12)
  end.

(** ** The kernel's reader *)
Definition until_nul : bytes -> bytes :=
  fix go l := match l with [] => [] | b :: r => if n8 b =? 0 then [] else b :: go r end.
(** The contents of one node; [None]: malformed.  [room] bounds the number of marks read. *)
Fixpoint contents (strs : bytes) (room : nat) (l : bytes) : option (list (bytes * bytes) * list tree * bytes) :=
  match room with
  | O => None
  | S k =>
      let mark := field l 0 in
      if mark =? 1 then
        let name := until_nul (skipn 4 l) in
        match contents strs k (skipn (4 + length name + 1 + N.to_nat (fill (lenN name + 1))) l) with
        | Some (ps, ts, l1) =>
            match contents strs k l1 with Some (ps', ts', l2) => Some (ps', Node name ps ts :: ts', l2) | None => None end
        | None => None
        end
      else if mark =? 2 then Some ([], [], skipn 4 l)
      else if mark =? 3 then
        let n := field l 4 in
        let name := until_nul (skipn (N.to_nat (field l 8)) strs) in
        let v := firstn (N.to_nat n) (skipn 12 l) in
        match contents strs k (skipn (12 + N.to_nat n + N.to_nat (fill n)) l) with
        | Some (ps, ts, l1) => Some ((name, v) :: ps, ts, l1)
        | None => None
        end
      else if mark =? 4 then contents strs k (skipn 4 l)
      else None
  end.
(** The bytes of guest memory from [a] on. *)
Definition guest_bytes (m : gmem) (a n : N) : bytes := map (fun i => gm_byte m (a + N.of_nat i)) (seq 0 (N.to_nat n)).
(** The device tree at [a]: aligned to 8, with the magic, at most 2 MiB. *)
Definition tree_at (m : gmem) (a : N) : option tree :=
  let size := be_num (guest_bytes m (a + 4) 4) in
  if negb (a mod 8 =? 0) || negb (be_num (guest_bytes m a 4) =? 0xd00dfeed) || (2 ^ 21 <? size) then None
  else
    let f := guest_bytes m a size in
    let l := skipn (N.to_nat (field f 8)) f in
    if negb (field l 0 =? 1) then None
    else match contents (skipn (N.to_nat (field f 12)) f) (length f) (skipn 8 l) with
         | Some (ps, ts, l1) => if field l1 0 =? 9 then Some (Node [] ps ts) else None
         | None => None
         end.

(** ** What Linux takes from the tree *)
Definition named (s : string) : bytes := map b8 (txt s).
Definition same (a b : bytes) : bool := if list_eq_dec Byte.byte_eq_dec a b then true else false.
Definition prop (name : string) (t : tree) : option bytes :=
  match t with Node _ ps _ => match find (fun p => same (fst p) (named name)) ps with Some p => Some (snd p) | None => None end end.
Definition name_of (t : tree) : bytes := match t with Node n _ _ => n end.
Definition inside (t : tree) : list tree := match t with Node _ _ ts => ts end.

(** [/chosen], or [/chosen@0]. *)
Definition chosen (t : tree) : option tree :=
  match find (fun c => same (name_of c) (named "chosen")) (inside t) with
  | Some c => Some c
  | None => find (fun c => same (name_of c) (named "chosen@0")) (inside t)
  end.
(** The command line: up to the NUL, [limit] (COMMAND_LINE_SIZE) with it. *)
Definition boot_line (limit : N) (c : tree) : text :=
  match prop "bootargs" c with
  | Some v => firstn (N.to_nat (limit - 1)) (map n8 (until_nul v))
  | None => []
  end.
(** The ramdisk. *)
Definition disk (c : tree) : option (N * N) :=
  match prop "linux,initrd-start" c, prop "linux,initrd-end" c with
  | Some s, Some e =>
      let s := be_num s mod 2 ^ 64 in let e := be_num e mod 2 ^ 64 in
      if e <=? s then None else Some (s, e - s)
  | _, _ => None
  end.
(** Pairs of address and size, [ac] and [sc] cells of 32 bits each; empty banks are skipped. *)
Fixpoint banks (room : nat) (ac sc : N) (l : bytes) : list (N * N * N) :=
  match room with
  | O => []
  | S k =>
      if lenN l <? 4 * (ac + sc) then []
      else
        let a := be_num (firstn (N.to_nat (4 * ac)) l) mod 2 ^ 64 in
        let s := be_num (firstn (N.to_nat (4 * sc)) (skipn (N.to_nat (4 * ac)) l)) mod 2 ^ 64 in
        let r := banks k ac sc (skipn (N.to_nat (4 * (ac + sc))) l) in
        if s =? 0 then r else (a, s, 1) :: r
  end.
Definition cells (name : string) (t : tree) : N := match prop name t with Some v => be_num (firstn 4 v) | None => 1 end.
Definition is_memory (t : tree) : bool := match prop "device_type" t with Some v => same v (named "memory" ++ [x00]) | None => false end.
Definition memory_of (t : tree) : list (N * N * N) :=
  flat_map (fun c =>
    if is_memory c then
      match prop "linux,usable-memory" c, prop "reg" c with
      | Some v, _ | None, Some v => banks (length v) (cells "#address-cells" t) (cells "#size-cells" t) v
      | None, None => []
      end
    else []) (inside t).
Definition view_tree (limit : N) (t : tree) : linux_view :=
  match chosen t with
  | Some c => mkView (memory_of t) (disk c) (boot_line limit c)
  | None => mkView (memory_of t) None []
  end.
Definition view_dtb (limit : N) (m : gmem) (a : N) : option linux_view :=
  match tree_at m a with Some t => Some (view_tree limit t) | None => None end.

(** ** The tree a VMM describes its machine with *)
Definition chosen_node (line : bytes) (rd : option (N * N)) (more : list (bytes * bytes)) : tree :=
  Node (named "chosen")
    ((named "bootargs", line ++ [x00])
     :: match rd with Some (s, n) => [(named "linux,initrd-start", be64 s); (named "linux,initrd-end", be64 (s + n))] | None => [] end ++ more) [].
Definition memory_node (name : bytes) (ram : list (N * N)) : tree :=
  Node name [(named "device_type", named "memory" ++ [x00]); (named "reg", flat_map (fun p => be64 (fst p) ++ be64 (snd p)) ram)] [].
(** The other nodes (processors, interrupt controllers, devices) may be anything but a second chosen or memory node. *)
Definition other_node (t : tree) : Prop := name_of t <> named "chosen" /\ is_memory t = false.
(** Further properties of the chosen node (seeds, stdout-path and so on). *)
Definition chosen_extra (p : bytes * bytes) : Prop := fst p <> named "linux,initrd-start" /\ fst p <> named "device_type".
Definition ram_typed (ram : list (N * N)) : Prop := forall a s, In (a, s) ram -> a < 2 ^ 64 /\ 0 < s < 2 ^ 64.
Definition disk_typed (rd : option (N * N)) : Prop := forall s n, rd = Some (s, n) -> 0 < n /\ s + n < 2 ^ 64.
Definition machine (more : list (bytes * bytes)) (before after : list tree) (line : bytes) (rd : option (N * N)) (chosen_more : list (bytes * bytes))
    (mem_name : bytes) (ram : list (N * N)) : tree :=
  Node [] ((named "#address-cells", be32 2) :: (named "#size-cells", be32 2) :: more)
    (before ++ [chosen_node line rd chosen_more; memory_node mem_name ram] ++ after).
Definition machine_typed (before after : list tree) (rd : option (N * N)) (chosen_more : list (bytes * bytes)) (mem_name : bytes) (ram : list (N * N)) : Prop :=
  Forall other_node before /\ Forall other_node after /\ disk_typed rd /\ Forall chosen_extra chosen_more /\ mem_name <> named "chosen" /\ ram_typed ram.
(** COMMAND_LINE_SIZE. *)
Definition line_limit (a : arch) : N := match a with Aarch64 => 2048 | Riscv64 => 1024 end.

(** ** A writer, to show that every tree has a blob *)
Fixpoint names_of (t : tree) : list bytes := match t with Node _ ps ts => map fst ps ++ flat_map names_of ts end.
Definition strings (ns : list bytes) : bytes := flat_map (fun n => n ++ [x00]) ns.
Fixpoint offset (ns : list bytes) (n : bytes) : N :=
  match ns with [] => 0 | x :: r => if same x n then 0 else lenN x + 1 + offset r n end.
Definition write_prop (ns : list bytes) (p : bytes * bytes) : bytes :=
  be32 3 ++ be32 (lenN (snd p)) ++ be32 (offset ns (fst p)) ++ snd p ++ zeros (fill (lenN (snd p))).
Fixpoint write_node (ns : list bytes) (t : tree) : bytes :=
  match t with Node n ps ts =>
    be32 1 ++ n ++ [x00] ++ zeros (fill (lenN n + 1)) ++ flat_map (write_prop ns) ps ++ flat_map (write_node ns) ts ++ be32 2
  end.
Definition write_blob (t : tree) : bytes :=
  let ns := names_of t in
  let st := write_node ns t ++ be32 9 in
  let strs := strings ns in
  be32 0xd00dfeed ++ be32 (56 + lenN st + lenN strs) ++ be32 56 ++ be32 (56 + lenN st) ++
  be32 40 ++ be32 17 ++ be32 16 ++ be32 0 ++ be32 (lenN strs) ++ be32 (lenN st) ++ zeros 16 ++ st ++ strs.
(** Names without NUL. *)
Fixpoint well_named (t : tree) : Prop :=
  match t with Node n ps ts =>
    ~ In x00 n /\ Forall (fun p => ~ In x00 (fst p)) ps /\ (fix all (l : list tree) : Prop := match l with [] => True | x :: r => well_named x /\ all r end) ts
  end.
