(** File names of blocks and pins (src/repo/fs/paths.rs) and the few [std::path] functions they use.
    Definitions only. *)
From Verif Require Import Base Wire Cid Text.
Local Open Scope N_scope.

(** A path below the store's base directory: the shard directory and the file name. *)
Definition path := (bytes * bytes)%type.
Definition path_eqb (a b : path) : bool := beq (fst a) (fst b) && beq (snd a) (snd b).

(** A name split at its last dot. *)
Fixpoint last_dot (s : bytes) : option (bytes * bytes) :=
  match s with
  | [] => None
  | c :: r =>
      match last_dot r with
      | Some (a, b) => Some (c :: a, b)
      | None => if c =? 46 then Some ([], r) else None
      end
  end.
(** [Path::file_stem], [Path::extension], [PathBuf::set_extension] of std. *)
Definition file_stem (name : bytes) : bytes :=
  match last_dot name with Some (a :: s, _) => a :: s | _ => name end.
Definition extension (name : bytes) : option bytes :=
  match last_dot name with Some (_ :: _, e) => Some e | _ => None end.
Definition set_extension (ext : bytes) (p : path) : path := (fst p, file_stem (snd p) ++ 46 :: ext).

(** [shard], paths.rs l.69-75: the two characters before the last one name the directory.  The
    subtraction underflows (a panic) when the key is shorter than three. *)
Definition shard (key : bytes) : outcome path unit :=
  if (length key <? 3)%nat then Panic
  else Ok (firstn 2 (skipn (length key - 3) key), key).

(** [Cid::new_v1(cid.codec(), cid.hash())] for version 0 cids, paths.rs l.8-12. *)
Definition to_v1 (c : cid) : cid := match c with CidV0 _ => CidV1 (cid_codec c) (cid_hash c) | _ => c end.

Definition ext_data : bytes := [100; 97; 116; 97].
Definition ext_tmp : bytes := [116; 109; 112].
Definition ext_direct : bytes := [100; 105; 114; 101; 99; 116].
Definition ext_recursive : bytes := [114; 101; 99; 117; 114; 115; 105; 118; 101].
Definition ext_recursive_temp : bytes := ext_recursive ++ [95; 116; 101; 109; 112].

Definition with_ext (ext : bytes) (o : outcome path unit) : outcome path unit :=
  match o with Ok p => Ok (set_extension ext p) | e => e end.

(** [block_path], paths.rs l.5-18. *)
Definition block_path (c : cid) : outcome path unit := with_ext ext_data (shard (cid_to_text (to_v1 c))).
(** [pin_path], paths.rs l.41-46. *)
Definition pin_path (c : cid) : outcome path unit := shard (b32_encode (cid_to_bytes c)).

Section Parse.
  Variable other_base : N -> bytes -> option bytes.
  (** [filestem_to_block_cid], paths.rs l.20-37. *)
  Definition filestem_to_block_cid (stem : bytes) : option cid :=
    if utf8 stem then cid_from_text other_base stem else None.
  (** [filestem_to_pin_cid], paths.rs l.49-58. *)
  Definition filestem_to_pin_cid (stem : bytes) : option cid :=
    if utf8 stem then
      match b32_decode stem with Some b => cid_from_bytes b | None => None end
    else None.
  (** The filter of [FsBlockStore::list], fs/blocks.rs l.395-405, on a file name. *)
  Definition listed_block (name : bytes) : option cid :=
    match extension name with
    | Some e => if beq e ext_data then filestem_to_block_cid (file_stem name) else None
    | None => None
    end.
  (** The filter of [list_pinfiles], fs/pinstore.rs l.466-483, on a file name: [true] for recursive. *)
  Definition listed_pin (name : bytes) : option (cid * bool) :=
    match extension name with
    | Some e =>
        if beq e ext_recursive then option_map (fun c => (c, true)) (filestem_to_pin_cid (file_stem name))
        else if beq e ext_direct then option_map (fun c => (c, false)) (filestem_to_pin_cid (file_stem name))
        else None
    | None => None
    end.
End Parse.
