(** Reading tar archives (independent of the writer), and the archive a walk should become. *)
From Verif Require Import Base Wire Cid Pb FileVisit IpfsPath StdPath PathSpec Walk WalkSpec.
Local Open Scope N_scope.

(** * A reader: gnu archives of files, directories and symlinks *)

Inductive content := File (b : bytes) | Directory | Symlink (target : bytes).
Record entry := mk_entry { a_path : bytes; a_content : content; a_mode : N; a_mtime : N }.

(** [len] bytes from the offset [off]. *)
Definition field (off len : nat) (b : bytes) : bytes := firstn len (skipn off b).
(** Texts end at the first zero. *)
Fixpoint until_zero (b : bytes) : bytes :=
  match b with [] => [] | c :: b => if c =? 0 then [] else c :: until_zero b end.
(** Numbers are octal digits. *)
Fixpoint octal (acc : N) (b : bytes) : option N :=
  match b with
  | [] => Some acc
  | d :: b => if (48 <=? d) && (d <=? 55) then octal (acc * 8 + (d - 48)) b else None
  end.
Definition number (b : bytes) : option N := match until_zero b with [] => None | d => octal 0 d end.
Definition sum (b : bytes) : N := fold_right N.add 0 b.
(** The sum of the bytes of the header, where the sum itself counts as eight spaces. *)
Definition sum_ok (h : bytes) : bool :=
  match number (field 148 8 h) with Some n => n =? sum (firstn 148 h) + 8 * 32 + sum (skipn 156 h) | None => false end.
Definition magic : bytes := [117; 115; 116; 97; 114; 32; 32; 0].

(** A header of 512 bytes, then the data, filled up with zeros to a multiple of 512 bytes.  Entries of
    type L and K carry the name and the link target of the entry that follows. *)
Fixpoint read (fuel : nat) (name link : option bytes) (b : bytes) : option (list entry) :=
  match fuel with
  | O => None
  | S fuel =>
      match b with
      | [] => match name, link with None, None => Some [] | _, _ => None end
      | _ =>
          let h := firstn 512 b in
          let body := skipn 512 b in
          if negb ((length h =? 512)%nat && sum_ok h && beq (field 257 8 h) magic) then None
          else
            match number (field 100 8 h), number (field 124 12 h), number (field 136 12 h), nth_error h 156 with
            | Some mode, Some size, Some mtime, Some type =>
                let used := firstn (N.to_nat ((size + 511) / 512 * 512)) body in
                let data := firstn (N.to_nat size) used in
                let filling := skipn (N.to_nat size) used in
                let rest := skipn (N.to_nat ((size + 511) / 512 * 512)) body in
                if negb ((blen used =? (size + 511) / 512 * 512) && forallb (N.eqb 0) filling) then None
                else if type =? 76 then read fuel (Some (until_zero data)) link rest
                else if type =? 75 then read fuel name (Some (until_zero data)) rest
                else
                  let path := match name with Some n => n | None => until_zero (field 0 100 h) end in
                  let target := match link with Some n => n | None => until_zero (field 157 100 h) end in
                  let what :=
                    if type =? 48 then Some (File data)
                    else if type =? 53 then Some Directory
                    else if type =? 50 then Some (Symlink target)
                    else None in
                  match what, read fuel None None rest with
                  | Some c, Some es => Some (mk_entry path c mode mtime :: es)
                  | _, _ => None
                  end
            | _, _, _, _ => None
            end
      end
  end.
(** The blocks of zeros at the end of an archive are not asked for. *)
Definition unpack (b : bytes) : option (list entry) := read (S (length b)) None None b.

(** * What the archive of a walk should hold *)

(** Times and sizes up to 8 GiB fit into the fields. *)
Definition fits (n : N) : Prop := n < 8 ^ 11.

(** A name which can be used: one step of a path, not "..", no zero in it. *)
Definition tidy_name (n : bytes) : Prop := step_name n /\ n <> [46; 46] /\ ~ In 0 n /\ wf_bytes n.
(** A path of such names.  When it is longer than 100 bytes, cutting it there must not leave "..". *)
Definition good_path (p : bytes) : Prop :=
  (exists ns, ns <> [] /\ Forall tidy_name ns /\ p = join ns) /\ fits (blen p + 1) /\
  ~ ((100 < length p)%nat /\ exists q, firstn 100 p = q ++ [47; 46; 46]).
Definition good_target (t : bytes) : Prop := t <> [] /\ ~ In 0 t /\ utf8 t = true.

(** Modes and times; the time 0 stands for none and for those before 1970. *)
Definition mode_of (m : metadata) (default : N) : N :=
  match m_mode m with Some mode => mode mod 4096 | None => default end.
Definition mtime_of (m : metadata) : N :=
  match m_mtime m with Some u => if t_secs u <? 2 ^ 63 then t_secs u else 0 | None => 0 end.
(** The reports for a file in pieces. *)
Definition file_report (c : cid) (p : bytes) (m : metadata) (size : N) (segs : list bytes) : list walked :=
  match segs with
  | [] => []
  | [s] => [OFile s true true c p m size]
  | s :: segs => OFile s true false c p m size :: later_segments c p m size segs
  end.

(** The entries which a walk shows. *)
Inductive shows : list walked -> list entry -> Prop :=
| shows_nil : shows [] []
| shows_bucket : forall c p os es, shows os es -> shows (OBucket c p :: os) es
| shows_directory : forall (top : bool) c p m os es,
    good_path p -> fits (mtime_of m) -> shows os es ->
    shows ((if top then ORootDirectory c p m else ODirectory c p m) :: os) (mk_entry p Directory (mode_of m 493) (mtime_of m) :: es)
| shows_file : forall c p m segs os es,
    segs <> [] -> good_path p -> fits (mtime_of m) -> fits (blen (concat segs)) -> shows os es ->
    shows (file_report c p m (blen (concat segs)) segs ++ os) (mk_entry p (File (concat segs)) (mode_of m 420) (mtime_of m) :: es)
| shows_symlink : forall t c p m os es,
    good_path p -> fits (mtime_of m) -> good_target t -> fits (blen t + 1) -> shows os es ->
    shows (OSymlink t c p m :: os) (mk_entry p (Symlink t) (mode_of m 420) (mtime_of m) :: es).

(** Targets may be written differently as long as they mean the same path: without repeated '/' and
    "." in them.  Those which do not have these stay as they are. *)
Definition neat (t : bytes) : Prop := exists ns, ns <> [] /\ Forall step_name ns /\ (t = join ns \/ t = 47 :: join ns).
Definition same_target (a b : bytes) : Prop :=
  is_absolute a = is_absolute b /\ comps a = comps b /\ (neat a -> a = b).
Definition same_entry (a b : entry) : Prop :=
  a_path a = a_path b /\ a_mode a = a_mode b /\ a_mtime a = a_mtime b /\
  match a_content a, a_content b with
  | Symlink t, Symlink t' => same_target t t'
  | x, y => x = y
  end.

(** Just the sizes: files are as long as they are said to be. *)
Inductive sized : list walked -> Prop :=
| sized_nil : sized []
| sized_file : forall c p m segs os, segs <> [] -> sized os -> sized (file_report c p m (blen (concat segs)) segs ++ os)
| sized_other : forall o os, match o with OFile _ _ _ _ _ _ _ => False | _ => True end -> sized os -> sized (o :: os).

(** The size a file says it has is the length of what reading it gives. *)
Definition honest (get : cid -> option bytes) : Prop := forall c b first size m rest fuel content,
  get c = Some b -> visit_start None b = Ok (first, size, m, rest) -> read_file fuel get None c = ReadOk content -> size = blen content.
(** What can be written of each report. *)
Definition good_walked (o : walked) : Prop :=
  match o with
  | OBucket _ _ => True
  | ODirectory _ p m | ORootDirectory _ p m => good_path p /\ fits (mtime_of m)
  | OFile _ _ _ _ p m size => good_path p /\ fits (mtime_of m) /\ fits size
  | OSymlink t _ p m => good_path p /\ fits (mtime_of m) /\ good_target t /\ fits (blen t + 1)
  end.
