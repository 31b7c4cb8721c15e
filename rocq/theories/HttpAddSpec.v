(** What the /add endpoint is asked for and what it tells, independent of how it works. *)
From Verif Require Import Base Wire Cid Pb FileSpec FileAdder FileVisit IpfsPath TreeBuilder TreeIter TreeIterSpec HttpAdd.
Local Open Scope N_scope.

(** File names are sent percent encoded: '%' and two hexadecimal digits stand for a byte, anything
    else for itself. *)
Inductive hex_digit : N -> N -> Prop :=
| hex_09 v : v < 10 -> hex_digit (48 + v) v
| hex_AF v : 10 <= v < 16 -> hex_digit (55 + v) v
| hex_af v : 10 <= v < 16 -> hex_digit (87 + v) v.
Definition escape (s : bytes) : Prop := exists a b x y r, s = 37 :: a :: b :: r /\ hex_digit a x /\ hex_digit b y.
Inductive decodes : bytes -> bytes -> Prop :=
| decodes_nil : decodes [] []
| decodes_escape a b x y s d : hex_digit a x -> hex_digit b y -> decodes s d -> decodes (37 :: a :: b :: s) (16 * x + y :: d)
| decodes_byte c s d : ~ escape (c :: s) -> decodes s d -> decodes (c :: s) (c :: d).
(** The name a file is given: decoded, UTF-8, without one leading slash. *)
Definition names (raw name : bytes) : Prop :=
  exists d, decodes raw d /\ utf8 d = true /\ (d = 47 :: name \/ d = name /\ forall r, d <> 47 :: r).

(** A part which asks for a file or a directory to be added. *)
Inductive ask := AskFile (name content : bytes) | AskDir (name : bytes).
Definition is_field (kind field : bytes) : Prop := field = kind \/ exists r, field = kind ++ 45 :: r.
Definition asks (p : part) (a : ask) : Prop :=
  p_broken p = false /\
  exists field raw, p_field p = Some field /\ p_filename p = Some raw /\
    match a with
    | AskFile name content => names raw name /\ content = concat (p_body p) /\ p_type p = Some s_octets /\ is_field s_file field
    | AskDir name => names raw name /\ p_type p = Some s_directory /\ is_field s_dir field
    end.

(** The blocks stored, the messages sent and the hashes announced, in order. *)
Definition put_blocks (t : list event) : list (cid * bytes) := flat_map (fun e => match e with EPut c b => [(c, b)] | EItem _ => [] end) t.
Definition messages (t : list event) : list response := flat_map (fun e => match e with EPut _ _ => [] | EItem l => l end) t.
Definition announced (l : list response) : list (bytes * cid * N) := flat_map (fun m => match m with AddedMsg n c s => [(n, c, s)] | Progress _ _ => [] end) l.

(** What was done for a part: for a file also the blocks it was cut into, the last of them being the
    root, and the progress reported. *)
Inductive did := DidFile (name content : bytes) (blocks : list (cid * bytes)) (root : cid) (reports : list N) | DidDir (name : bytes).
Definition did_call (d : did) : call :=
  match d with DidFile name _ blocks root _ => PutLink name root (blocks_size blocks) | DidDir name => SetMetadata name meta0 end.
Definition did_blocks (d : did) : list (cid * bytes) := match d with DidFile _ _ blocks _ _ => blocks | DidDir _ => [] end.
Definition did_messages (cid_text : cid -> bytes) (d : did) : list response :=
  match d with
  | DidFile name _ blocks root reports =>
      map (Progress name) reports ++ [AddedMsg (match name with [] => cid_text root | _ => name end) root (blocks_size blocks)]
  | DidDir _ => []
  end.
(** Progress reports: the bytes read after some of the pieces, never less than before, and in the
    end all of them. *)
Fixpoint rising (l : list N) : Prop := match l with a :: (b :: _) as r => a <= b /\ rising r | _ => True end.
Definition report_ok (progress : bool) (body : list bytes) (reports : list N) : Prop :=
  if progress then
    rising reports /\ (exists front, reports = front ++ [blen (concat body)]) /\
    Forall (fun n => exists k, n = blen (concat (firstn k body))) reports
  else reports = [].
Definition did_for (sha : bytes -> bytes) (chunk bf : nat) (progress : bool) (p : part) (d : did) : Prop :=
  match d with
  | DidFile name content blocks root reports =>
      asks p (AskFile name content) /\ add_file sha chunk bf (p_body p) = Added blocks /\ blocks_size blocks < 2 ^ 64 /\
      (exists front block, blocks = front ++ [(root, block)]) /\ report_ok progress (p_body p) reports
  | DidDir name => asks p (AskDir name)
  end.

(** The blocks of a file, whichever way its content was cut into pieces, their root, what is put into
    the tree and what is announced. *)
Section Asked.
  Variable sha : bytes -> bytes.
  Variables chunk bf : nat.
  Variable cid_text : cid -> bytes.
  Definition content_blocks (content : bytes) : list (cid * bytes) :=
    match add_file sha chunk bf [content] with Added blocks => blocks | _ => [] end.
  Definition root_of (blocks : list (cid * bytes)) : cid := fst (last blocks (CidV0 [], [])).
  Definition ask_blocks (a : ask) : list (cid * bytes) :=
    match a with AskFile _ content => content_blocks content | AskDir _ => [] end.
  Definition ask_call (a : ask) : call :=
    match a with
    | AskFile name content => PutLink name (root_of (content_blocks content)) (blocks_size (content_blocks content))
    | AskDir name => SetMetadata name meta0
    end.
  Definition ask_announced (a : ask) : list (bytes * cid * N) :=
    match a with
    | AskFile name content =>
        let c := root_of (content_blocks content) in
        [(match name with [] => cid_text c | _ => name end, c, blocks_size (content_blocks content))]
    | AskDir _ => []
    end.
  Definition ask_fits (a : ask) : Prop :=
    match a with AskFile _ content => blocks_size (content_blocks content) < 2 ^ 64 | AskDir _ => True end.
End Asked.
Definition all_ask (parts : list (option part)) (asked : list ask) : Prop :=
  Forall2 (fun o a => exists p, o = Some p /\ asks p a) parts asked.

(** What a message means once the blocks and messages of [t] have been seen: the hash is the root of a
    file of the request, all of whose blocks have just been stored, with their number of bytes; or that of
    a directory whose block has been stored and whose entries have all been announced before, with
    the same hashes and sizes. *)
Definition meant (sha : bytes -> bytes) (chunk bf : nat) (cid_text : cid -> bytes) (parts : list (option part)) (t : list event)
    (name : bytes) (c : cid) (size : N) : Prop :=
  (exists p n content blocks front block, In (Some p) parts /\ asks p (AskFile n content) /\
     name = match n with [] => cid_text c | _ => n end /\
     add_file sha chunk bf (p_body p) = Added blocks /\ blocks = front ++ [(c, block)] /\
     size = blocks_size blocks /\ size < 2 ^ 64 /\ exists before, put_blocks t = before ++ blocks) \/
  (exists es, c = dir_cid sha es /\ size = dir_total es /\ size < 2 ^ 64 /\ In (c, dir_block es) (put_blocks t) /\
     forall n c' s', In (n, (c', s')) es -> exists name', In (name', c', s') (announced (messages t))).
