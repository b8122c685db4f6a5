(** Messages as they lie on the wire, independently of the code that reads and writes them. *)
From Coq Require Import String.
From Verif Require Import Base Bytes Reader Types Text Packets SpecNum SpecWire SpecCompress.
Open Scope list_scope.
Open Scope nat_scope.

(** [l] is a form of the number [n]; not only the shortest one. *)
Definition varint_of (n : N) (l : bytes) : Prop :=
  is_varint l /\ length l <= 10 /\ varint_value l = n /\ (n < 2 ^ 64)%N.

(** [l] is the string [s] after its length. *)
Definition text_of (s l : bytes) : Prop :=
  (lenN s <= isize_max)%N /\ exists v, varint_of (lenN s) v /\ l = v ++ s.

(** The same, for strings that are text. *)
Definition utext_of (s l : bytes) : Prop := is_utf8 s /\ text_of s l.

(** A truth value in one byte. *)
Definition flag_of (b : bool) (l : bytes) : Prop := l = [if b then 1%N else 0%N].

(** A number in [w] bytes. *)
Definition fixed_of (w : nat) (n : N) (l : bytes) : Prop :=
  bytes_ok l /\ length l = w /\ positional l = Z.of_N n.

(** One field after the other. *)
Fixpoint fields (ps : list (bytes -> Prop)) (l : bytes) : Prop :=
  match ps with
  | [] => l = []
  | p :: ps' => exists a b, l = a ++ b /\ p a /\ fields ps' b
  end.

(** [p] if the revision has the field. *)
Definition since (gate revision : N) (p : bytes -> Prop) : list (bytes -> Prop) :=
  if (gate <=? revision)%N then [p] else [].

(** What the server sends, number and fields in the order of the protocol. *)
Definition hello_layout (name : bytes) (major minor revision : N) (zone display : bytes) (patch : N) :=
  [varint_of 0; utext_of name; varint_of major; varint_of minor; varint_of revision] ++
  since 54058 revision (utext_of zone) ++ since 54372 revision (utext_of display) ++
  since 54401 revision (varint_of patch).
Definition exception_layout (code : N) (name message stack : bytes) :=
  [varint_of 2; fixed_of 4 code; utext_of name; utext_of message; utext_of stack].
Definition progress_layout (revision rows bytes total written_rows written_bytes : N) :=
  [varint_of 3; varint_of rows; varint_of bytes] ++ since 51554 revision (varint_of total) ++
  since 54420 revision (varint_of written_rows) ++ since 54420 revision (varint_of written_bytes).
Definition pong_layout := [varint_of 4].
Definition end_layout := [varint_of 5].
Definition profile_layout (rows blocks bytes : N) (applied : bool) (before : N) (calculated : bool) :=
  [varint_of 6; varint_of rows; varint_of blocks; varint_of bytes; flag_of applied; varint_of before;
   flag_of calculated].
Definition table_columns_layout (table columns : bytes) := [varint_of 11; utext_of table; utext_of columns].

(** A message with a block: data, totals or extremes, the name of a table, the block. *)
Definition data_layout (number : N) (table : bytes) (block : bytes -> Prop) :=
  [varint_of number; text_of table; block].

(** What the client sends: first, its name and version, and who connects. *)
Definition client_hello_layout (name : bytes) (major minor revision : N) (database user password : bytes) :=
  [varint_of 0; text_of name; varint_of major; varint_of minor; varint_of revision;
   text_of database; text_of user; text_of password].

(** Then queries. The value of a setting is text or, in old revisions, a number, depending on the
    setting; the flag is sent from revision 54429 on. *)
Inductive sent_value := VText (s : bytes) | VNumber (n : N).
Record sent_setting := mk_sent { ss_name : bytes; ss_flag : option bool; ss_value : sent_value }.
Record client_fields := mk_client_fields {
  qc_kind : N; qc_initial_user : bytes; qc_initial_id : bytes; qc_address : bytes; qc_interface : N;
  qc_os_user : bytes; qc_hostname : bytes; qc_client : bytes; qc_major : N; qc_minor : N;
  qc_revision : N; qc_quota_key : option bytes; qc_patch : option N }.
Record query_message := mk_query_message {
  qm_id : bytes; qm_client : option client_fields; qm_settings : list sent_setting;
  qm_stage : N; qm_compression : N; qm_sql : bytes }.

Definition is_some {A} (o : option A) : bool := match o with Some _ => true | None => false end.
Definition opt {A} (p : A -> bytes -> Prop) (o : option A) : list (bytes -> Prop) :=
  match o with Some x => [p x] | None => [] end.

Definition setting_layout (s : sent_setting) : list (bytes -> Prop) :=
  text_of (ss_name s) :: opt flag_of (ss_flag s) ++
  [match ss_value s with VText t => text_of t | VNumber n => varint_of n end].
Definition client_layout (c : client_fields) : list (bytes -> Prop) :=
  [varint_of (qc_kind c); text_of (qc_initial_user c); text_of (qc_initial_id c); text_of (qc_address c);
   varint_of (qc_interface c); text_of (qc_os_user c); text_of (qc_hostname c); text_of (qc_client c);
   varint_of (qc_major c); varint_of (qc_minor c); varint_of (qc_revision c)] ++
  opt text_of (qc_quota_key c) ++ opt varint_of (qc_patch c).
Definition query_layout (m : query_message) : list (bytes -> Prop) :=
  [varint_of 1; text_of (qm_id m)] ++
  match qm_client m with Some c => client_layout c | None => [] end ++
  flat_map setting_layout (qm_settings m) ++ [text_of []] ++
  [varint_of (qm_stage m); varint_of (qm_compression m); text_of (qm_sql m)].

(** Which fields a message has at a revision. [numeric] says which settings the server reads as
    numbers before revision 54429. *)
Definition setting_at (revision : N) (numeric : bytes -> bool) (s : sent_setting) : Prop :=
  ss_name s <> [] /\ is_some (ss_flag s) = (54429 <=? revision)%N /\
  match ss_value s with
  | VText _ => ((54429 <=? revision)%N || negb (numeric (ss_name s))) = true
  | VNumber _ => (negb (54429 <=? revision)%N && numeric (ss_name s)) = true
  end.
Definition message_at (revision : N) (numeric : bytes -> bool) (m : query_message) : Prop :=
  is_some (qm_client m) = (54032 <=? revision)%N /\
  (forall c, qm_client m = Some c ->
     is_some (qc_quota_key c) = (54060 <=? revision)%N /\ is_some (qc_patch c) = (54401 <=? revision)%N) /\
  Forall (setting_at revision numeric) (qm_settings m).

(** The server reads the message [m] from the start of [l]; [rest] follows it. *)
Definition reads_query (revision : N) (numeric : bytes -> bool) (l : bytes) (m : query_message) (rest : bytes) : Prop :=
  message_at revision numeric m /\ exists u, l = u ++ rest /\ fields (query_layout m) u.

(** A block without columns: the two fields of its header (no overflow row; bucket -1), their end,
    no columns, no rows. *)
Definition empty_block_bytes : bytes := [1; 0; 2; 255; 255; 255; 255; 0; 0; 0]%N.

(** The digits of a number, without superfluous zeros. *)
Definition digits_text (n : N) (t : bytes) : Prop :=
  exists ds, t = map (fun d => (48 + d)%N) ds /\ digits_ok ds /\ dec_value ds = Z.of_N n /\
    ds <> [] /\ (hd 1%N ds = 0%N -> length ds = 1).

(** How the value of a setting is sent: as text to a revision that has all settings as text. The
    text of a float is left open. *)
Definition value_sent (show_float : Z -> bytes) (as_text : bool) (v : setting) (w : sent_value) : Prop :=
  match v with
  | SString s => w = VText s
  | SBoolean b => w = (if as_text then VText (str (if b then "true" else "false"))
                       else VNumber (if b then 1 else 0))
  | SUInt n => if as_text then exists t, digits_text n t /\ w = VText t else w = VNumber n
  | SFloat f => w = VText (show_float f)
  end.
Definition setting_sent (show_float : Z -> bytes) (as_text : bool) (x : bytes * setting_value) (s : sent_setting) : Prop :=
  ss_name s = fst x /\ ss_flag s = (if as_text then Some (sv_important (snd x)) else None) /\
  value_sent show_float as_text (sv_value (snd x)) (ss_value s).

(** The settings the server reads as numbers before revision 54429. *)
Definition is_numeric (v : setting) : bool := match v with SBoolean _ | SUInt _ => true | _ => false end.

(** Strings that fit in memory and numbers of 64 bits. *)
Definition fits (s : bytes) : Prop := (lenN s <= isize_max)%N.
Definition setting_fits (show_float : Z -> bytes) (x : bytes * setting_value) : Prop :=
  fits (fst x) /\
  match sv_value (snd x) with
  | SString s => fits s
  | SBoolean _ => True
  | SUInt n => (n < 2 ^ 64)%N
  | SFloat f => fits (show_float f)
  end.
