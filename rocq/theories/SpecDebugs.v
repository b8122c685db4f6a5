(** Spec of C106. *)
From Verif Require Import Base Bytes Types Packets Options Debugs.
Open Scope list_scope.

(** Options, and URLs, that differ at most in user name and password. *)
Definition same_but_credentials (a b : opts) : Prop :=
  op_addr a = op_addr b /\ op_database a = op_database b /\ op_compression a = op_compression b /\ op_pool_min a = op_pool_min b /\
  op_pool_max a = op_pool_max b /\ op_nodelay a = op_nodelay b /\ op_keepalive a = op_keepalive b /\
  op_ping_before_query a = op_ping_before_query b /\ op_send_retries a = op_send_retries b /\ op_retry_timeout a = op_retry_timeout b /\
  op_ping_timeout a = op_ping_timeout b /\ op_connection_timeout a = op_connection_timeout b /\ op_query_timeout a = op_query_timeout b /\
  op_insert_timeout a = op_insert_timeout b /\ op_execute_timeout a = op_execute_timeout b /\ op_secure a = op_secure b /\
  op_skip_verify a = op_skip_verify b /\ op_settings a = op_settings b /\ op_alt_hosts a = op_alt_hosts b.
Definition url_same_but_credentials (u v : url) : Prop :=
  u_scheme u = u_scheme v /\ u_host u = u_host v /\ u_port u = u_port v /\ u_no_base u = u_no_base v /\ u_path u = u_path v /\
  u_query u = u_query v /\ u_fragment u = u_fragment v.

(** What is shown somewhere inside of what is shown. *)
Inductive shows : shown -> shown -> Prop :=
| s_here x : shows x x
| s_option x y : shows x y -> shows (ShOption (Some x)) y
| s_list l x y : In x l -> shows x y -> shows (ShList l) y
| s_map l k x y : In (k, x) l -> shows x y -> shows (ShMap l) y
| s_field n l k x y : In (k, x) l -> shows x y -> shows (ShStruct n l) y.
