(** The /pin endpoints: http/src/v0/pin.rs and http/src/v0/pin/add.rs, over blocks and pins on disk.
    Definitions only.

    The calls of a request are not interleaved with other requests, and an abandoned request is not
    stopped in the middle of a call of the pin store.  The timeout of /pin/ls is parsed and not used. *)
From Verif Require Import Base Wire Cid Text Ipld FMap BlockSpec FsPaths FsBlocks PinSpec FsPins PinnedRepo RefsHttp HttpOptions NodePins.
From Verif Require HttpBlock.
Local Open Scope N_scope.

Definition k_type : bytes := [116; 121; 112; 101].
Definition k_quiet : bytes := [113; 117; 105; 101; 116].
Definition k_stream : bytes := [115; 116; 114; 101; 97; 109].
Definition k_progress : bytes := [112; 114; 111; 103; 114; 101; 115; 115].
Definition n_all : bytes := [97; 108; 108].
Definition n_direct : bytes := [100; 105; 114; 101; 99; 116].
Definition n_indirect : bytes := [105; 110; 100; 105; 114; 101; 99; 116].
Definition n_recursive : bytes := [114; 101; 99; 117; 114; 115; 105; 118; 101].
(** "indirect through " *)
Definition n_through : bytes := [105; 110; 100; 105; 114; 101; 99; 116; 32; 116; 104; 114; 111; 117; 103; 104; 32].

(** [PinFilter::from_str] and [to_mode], pin.rs l.126-160. *)
Definition filter_named (s : bytes) : option (option mode) :=
  if beq s n_all then Some None
  else if beq s n_direct then Some (Some Direct)
  else if beq s n_recursive then Some (Some Recursive)
  else if beq s n_indirect then Some (Some Indirect)
  else None.
(** pin.rs l.213-217. *)
Definition mode_text (m : mode) : bytes :=
  match m with Direct => n_direct | Indirect => n_indirect | Recursive => n_recursive end.
(** pin.rs l.245-253. *)
Definition kind_text (k : pkind) : bytes :=
  match k with
  | KRecursive _ | KIntent => n_recursive
  | KDirect => n_direct
  | KIndirect root => n_through ++ cid_to_text root
  end.

(** * JSON *)
Definition k_cid_key : bytes := [67; 105; 100].
Definition k_type_key : bytes := [84; 121; 112; 101].
Definition k_err_key : bytes := [69; 114; 114].
Definition k_pins_key : bytes := [80; 105; 110; 115].
(** A line of [Good] or of an error, pin.rs l.189-204 and l.267-303. *)
Definition ls_line (x : bytes * bytes) : bytes :=
  123 :: json_string k_cid_key ++ 58 :: json_string (fst x) ++ 44 :: json_string k_type_key ++ 58 :: json_string (snd x) ++ [125; 10].
Definition err_line (e : bytes) : bytes := 123 :: json_string k_err_key ++ 58 :: json_string e ++ [125; 10].
(** An array of strings. *)
Fixpoint json_strings (l : list bytes) : bytes :=
  match l with
  | [] => [93]
  | [x] => json_string x ++ [93]
  | x :: l => json_string x ++ 44 :: json_strings l
  end.
(** [AddResponse], add.rs l.17-23, and [RemoveResponse], pin.rs l.343-347: {"Pins":[...]}. *)
Definition pins_json (cs : list cid) : bytes := 123 :: json_string k_pins_key ++ 58 :: 91 :: json_strings (map cid_to_text cs) ++ [125].

(** [Refused]: an error response (rejections and errors of the node), [Unimplemented]: the one for
    [NotImplemented], [NoAnswer]: a block is waited for. *)
Inductive reply := Body (b : bytes) | Refused | Unimplemented | NoAnswer | Crash.
Definition state : Type := fs * fs.

Section Endpoints.
  Variable duration : bytes -> bool.
  Variable other_base : N -> bytes -> option bytes.
  Variable decode : cid -> bytes -> outcome ipld unit.
  Variable checks : bool.
  Variable fuel : nat.
  (** The text of a storage error. *)
  Variable storage_error : bytes.

  Definition a_cid (v : bytes) : bool := match cid_from_text other_base v with Some _ => true | None => false end.
  (** [AddRequest::try_from], add.rs l.51-95. *)
  Definition add_rules (k : bytes) : option rule :=
    if beq k k_arg then Some (mk_rule false a_cid) else if beq k k_recursive then Some (mk_rule true a_bool)
    else if beq k k_progress then Some (mk_rule true a_bool) else None.
  (** [ListRequest::try_from], pin.rs l.37-116. *)
  Definition ls_rules (k : bytes) : option rule :=
    if beq k k_arg then Some (mk_rule false a_cid)
    else if beq k k_type then Some (mk_rule true (fun v => match filter_named v with Some _ => true | None => false end))
    else if beq k k_timeout then Some (mk_rule true duration)
    else if beq k k_quiet then Some (mk_rule true a_bool) else if beq k k_stream then Some (mk_rule true a_bool) else None.
  (** [RemoveRequest], pin.rs l.314-323. *)
  Definition rm_rules (k : bytes) : option rule :=
    if beq k k_arg then Some (mk_rule true a_cid) else if beq k k_recursive then Some (mk_rule true a_bool) else None.

  Notation step := (fs_node_step other_base decode checks fuel).

  (** [try_join_all] over [insert_pin], add.rs l.36-46, when the calls come to their end in the order of
      [l]: the first error ends it, and then the remaining ones are dropped; one that waits lets the
      others go on. *)
  Fixpoint pin_all (s : state) (rec : bool) (l : list cid) : state * nans :=
    match l with
    | [] => (s, Done)
    | c :: l =>
        match step s (NPin c rec) with
        | (s', Done, _) => pin_all s' rec l
        | (s', Waits, _) => match pin_all s' rec l with (s'', Done) => (s'', Waits) | x => x end
        | (s', a, _) => (s', a)
        end
    end.
  (** The elements at the given positions. *)
  Definition in_order {A} (l : list A) (order : list nat) : list A :=
    flat_map (fun i => match nth_error l i with Some x => [x] | None => [] end) order.
  Definition replied (a : nans) (b : bytes) : reply :=
    match a with Done => Body b | Failed => Refused | Waits => NoAnswer | Crashed => Crash end.

  (** [add_inner], add.rs l.25-52; [order]: the positions of the arguments as their calls end. *)
  Definition pin_add (query : list (bytes * bytes)) (order : list nat) (s : state) : state * reply :=
    match read_query add_rules [] query with
    | Ok q =>
        match HttpBlock.parse_cids other_base (all_of k_arg q) with
        | None | Some [] => (s, Refused)
        | Some cs =>
            if bool_of false (one_of k_progress q) then (s, Unimplemented)
            else let (s', a) := pin_all s (bool_of false (one_of k_recursive q)) (in_order cs order) in (s', replied a (pins_json cs))
        end
    | _ => (s, Refused)
    end.

  (** [list_inner], pin.rs l.181-265.  Whether to stream is taken from "quiet" (l.112). *)
  Definition pin_ls (query : list (bytes * bytes)) (s : state) : reply :=
    match read_query ls_rules [] query with
    | Ok q =>
        match HttpBlock.parse_cids other_base (all_of k_arg q), (match one_of k_type q with None => Some None | Some v => filter_named v end) with
        | Some cs, Some req =>
            let stream := bool_of true (one_of k_quiet q) in
            match cs with
            | [] =>
                if negb stream then Unimplemented
                else let (l, ok) := fs_pin_list other_base (snd s) req in
                     Body (concat (map (fun x => ls_line (cid_to_text (fst x), mode_text (snd x))) l) ++ if ok then [] else err_line storage_error)
            | _ =>
                match fs_query other_base (snd s) cs req with
                | None => Refused
                | Some l =>
                    if negb stream then Unimplemented
                    else Body (concat (map (fun x => ls_line (cid_to_text (fst x), kind_text (snd x))) l))
                end
            end
        | _, _ => Refused
        end
    | _ => Refused
    end.

  (** [rm_inner], pin.rs l.331-342. *)
  Definition pin_rm (query : list (bytes * bytes)) (s : state) : state * reply :=
    match read_query rm_rules [] query with
    | Ok q =>
        match HttpBlock.parse_cids other_base (all_of k_arg q) with
        | Some (c :: _) =>
            let '(s', a, _) := step s (NUnpin c (bool_of true (one_of k_recursive q))) in (s', replied a (pins_json [c]))
        | _ => (s, Refused)
        end
    | _ => (s, Refused)
    end.
End Endpoints.
