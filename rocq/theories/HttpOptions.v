(** Reading the options of a query, as several endpoints do.  Definitions only. *)
From Verif Require Import Base Wire Cid Text IpfsPath Resolve RefsHttp.
Local Open Scope N_scope.

(** How a key is read: it may be given once or any number of times, and which values can be read. *)
Record rule := mk_rule { once : bool; readable : bytes -> bool }.
Inductive query_err := Duplicate (k : bytes) | Unreadable (k v : bytes).

(** The loops over [url::form_urlencoded::parse] in http/src/v0/block/options.rs l.22-46,
    http/src/v0/pin.rs l.48-105 and http/src/v0/pin/add.rs l.51-95, and serde's for [warp::query]: keys
    without a rule are passed over, the first key which is repeated or cannot be read ends it.  The
    pairs which were taken are kept as they are.  (Where a value is read before it is known to be
    repeated, only the error differs.) *)
Fixpoint read_query (rules : bytes -> option rule) (seen : list bytes) (l : list (bytes * bytes)) : outcome (list (bytes * bytes)) query_err :=
  match l with
  | [] => Ok []
  | (k, v) :: l =>
      match rules k with
      | None => read_query rules seen l
      | Some r =>
          if once r && existsb (beq k) seen then Err (Duplicate k)
          else if readable r v then
            match read_query rules (k :: seen) l with
            | Ok t => Ok ((k, v) :: t)
            | Err e => Err e
            | Panic => Panic
            end
          else Err (Unreadable k v)
      end
  end.
(** All values of a key, and the first one. *)
Fixpoint all_of (k : bytes) (l : list (bytes * bytes)) : list bytes :=
  match l with
  | [] => []
  | (k', v) :: l => if beq k' k then v :: all_of k l else all_of k l
  end.
Definition one_of (k : bytes) (l : list (bytes * bytes)) : option bytes := hd_error (all_of k l).

Definition any_value : bytes -> bool := fun _ => true.
Definition a_bool (v : bytes) : bool := match parse_bool v with Some _ => true | None => false end.
Definition bool_of (d : bool) (v : option bytes) : bool :=
  match v with None => d | Some v => match parse_bool v with Some b => b | None => d end end.
(** [str::parse::<u8>]. *)
Definition parse_u8 (s : bytes) : option N :=
  let ds := match s with 43 :: r => r | _ => s end in
  match ds with
  | [] => None
  | _ => match digits_val ds 0 with Some v => if v <? 256 then Some v else None | None => None end
  end.
