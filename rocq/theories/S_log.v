(** S_log.v -- vocabulary for the logging theorem. *)
From Coq Require Import String Ascii ZArith List.
Import ListNotations.
Open Scope Z_scope.

(** The documented levels. *)
Inductive is_level : string -> Z -> Prop :=
| lv_crit : is_level "CRITICAL" 50 | lv_fatal : is_level "FATAL" 50 | lv_err : is_level "ERROR" 40 | lv_warn : is_level "WARN" 30
| lv_warning : is_level "WARNING" 30 | lv_info : is_level "INFO" 20 | lv_debug : is_level "DEBUG" 10 | lv_notset : is_level "NOTSET" 0.
(** [b] is the letter [a] or its capital. *)
Definition same_letter (a b : ascii) : Prop :=
  a = b /\ ~ (97 <= nat_of_ascii a <= 122)%nat \/ (97 <= nat_of_ascii a <= 122)%nat /\ nat_of_ascii b = (nat_of_ascii a - 32)%nat.
(** [t] is [s] in capitals. *)
Inductive capitals : string -> string -> Prop :=
| cap_nil : capitals "" ""
| cap_cons a b s t : same_letter a b -> capitals s t -> capitals (String a s) (String b t).
(** The text [s] names the level [v] in whatever case. *)
Definition names_level (s : string) (v : Z) : Prop := exists t, capitals s t /\ is_level t v.
(** The last value given to a key. *)
Definition last_value (l : list (string * string)) (k v : string) : Prop := exists a b, l = a ++ (k, v) :: b /\ forall w, ~ In (k, w) b.
(** The first value given to a key. *)
Definition first_value (l : list (string * string)) (k v : string) : Prop := exists a b, l = a ++ (k, v) :: b /\ forall w, ~ In (k, w) a.
(** A setting: from the environment, else from the file, else the default. *)
Definition setting (env dot : list (string * string)) (k dflt v : string) : Prop :=
  first_value env k v \/ (forall w, ~ In (k, w) env) /\ (last_value dot k v \/ (forall w, ~ In (k, w) dot) /\ v = dflt).
(** A path with a directory part. *)
Definition in_directory (p : string) : Prop := exists a b, p = (a ++ "/" ++ b)%string.
