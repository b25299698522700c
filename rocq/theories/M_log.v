(** M_log.v -- utils/log.py: set-up of the root logger, and which records reach which handler.

    Simplifications: texts are ASCII; formats, rotation of the file and the "propagate" flag of the root (it has no parent) are
    left out; [logging.disable] and [addLevelName] are not used; the [.env] file is given as its list of entries. *)
From Coq Require Import String Ascii ZArith List Bool.
Import ListNotations.
Open Scope Z_scope.

(** log.py L28, L46: what the set-up may raise ([min] of a number and a text; unknown level; no directory). *)
Inductive log_exn := LType | LValue | LNoDir.
(** log.py L31, L43: where a handler writes. *)
Inductive sink := Console | File (path : string).
(** log.py L31-36, L43-54: a handler and its level. *)
Record handler := mkH { h_sink : sink; h_level : Z }.
(** log.py L12, L28-29, L58-62: handlers and level of the root logger, levels of named loggers (latest first; a name is its list of components). *)
Record logs := mkL { l_handlers : list handler; l_root : Z; l_named : list (list string * Z) }.

(** log.py L23-25, L58-62: [_nameToLevel] of the logging module. *)
Definition level_names : list (string * Z) :=
  [("CRITICAL", 50); ("FATAL", 50); ("ERROR", 40); ("WARN", 30); ("WARNING", 30); ("INFO", 20); ("DEBUG", 10); ("NOTSET", 0)]%string.
(** First entry with that key (log.py L23-25, [dict.get] of distinct keys). *)
Fixpoint assoc {A} (k : string) (l : list (string * A)) : option A :=
  match l with [] => None | (n, v) :: t => if String.eqb n k then Some v else assoc k t end.
(** log.py L23-24: [str.upper]. *)
Definition up_char (c : ascii) : ascii := let n := nat_of_ascii c in if ((97 <=? n) && (n <=? 122))%nat then ascii_of_nat (n - 32) else c.
(** log.py L23-24: [str.upper]. *)
Fixpoint up (s : string) : string := match s with EmptyString => EmptyString | String c t => String (up_char c) (up t) end.
(** log.py L20, L23-25: [os.getenv] after [load_dotenv()], which does not replace variables that are set; the last of several entries of
    the file counts. *)
Definition getenv (env dot : list (string * string)) (k : string) : option string :=
  match assoc k env with Some v => Some v | None => assoc k (rev dot) end.
(** log.py L23-24: a level with its default. *)
Definition level_text (env dot : list (string * string)) (k dflt : string) : string := up (match getenv env dot k with Some v => v | None => dflt end).
(** log.py L28: [logging.getLevelName] of a text: the number, or a text (None) for unknown names. *)
Definition level_of (s : string) : option Z := assoc s level_names.
(** log.py L40: [os.path.dirname] is empty exactly if there is no slash. *)
Fixpoint has_slash (s : string) : bool := match s with EmptyString => false | String c t => (Ascii.eqb c "/" || has_slash t)%bool end.
(** log.py L58-62: the loggers of other packages. *)
Definition noisy : list string := ["numba"; "matplotlib"; "pandas"; "numpy"; "urllib3"]%string.

Section Setup.
  (** The environment and the entries of the [.env] file (log.py L20). *)
  Variable env dot : list (string * string).
  (** log.py L41: whether the directory of a path (not empty) exists or can be made. *)
  Variable makedirs : string -> bool.

  (** log.py L39: the path if it is set and not empty. *)
  Definition log_path : option string :=
    match getenv env dot "FMK_LOG_FILE_PATH" with Some EmptyString => None | r => r end.
  (** log.py L5-65 [setup_logging]. *)
  Definition setup_logging (st : logs) : option log_exn * logs :=
    match l_handlers st with
    | _ :: _ => (None, st)
    | [] =>
        let ft := level_text env dot "FMK_FILE_LOGGER_LEVEL" "DEBUG" in
        let ct := level_text env dot "FMK_CONSOLE_LOGGER_LEVEL" "INFO" in
        match level_of ft, level_of ct with
        | Some fl, Some cl =>
            let st1 := mkL [mkH Console cl] (Z.min fl cl) (l_named st) in
            let quiet st := mkL (l_handlers st) (l_root st) (map (fun n => ([n], 30)) (rev noisy) ++ l_named st) in
            match log_path with
            | None => (None, quiet st1)
            | Some p =>
                if (has_slash p && makedirs p)%bool
                then (None, quiet (mkL (l_handlers st1 ++ [mkH (File p) fl]) (l_root st1) (l_named st1)))
                else (Some LNoDir, st1)
            end
        | None, None => (Some LValue, st)
        | _, _ => (Some LType, st)
        end
    end.
  (** log.py L67-72 [get_logger], called on import by every module; n calls, the exception of the last one. *)
  Fixpoint get_loggers (n : nat) (st : logs) : option log_exn * logs :=
    match n with O => (None, st) | S O => setup_logging st | S m => setup_logging (snd (get_loggers m st)) end.
End Setup.

(** Level set for a logger (log.py L29, L58-62), 0 if none. *)
Fixpoint own_level (l : list (list string * Z)) (name : list string) : Z :=
  match l with [] => 0 | (n, v) :: t => if list_eq_dec string_dec n name then v else own_level t name end.
(** [Logger.getEffectiveLevel] (log.py L29, L58-62): own level, else that of the parent, at last of the root. *)
Fixpoint effective (st : logs) (fuel : nat) (name : list string) : Z :=
  match fuel, name with
  | S k, _ :: _ => let v := own_level (l_named st) name in if v =? 0 then effective st k (removelast name) else v
  | _, _ => l_root st
  end.
(** Which handlers write a record of level [lvl] of the logger [name] (log.py L32, L49, L71-72; [Logger.isEnabledFor], [callHandlers]). *)
Definition written (st : logs) (name : list string) (lvl : Z) : list sink :=
  if ((lvl <=? 0) || (lvl <? effective st (List.length name) name))%bool then []
  else map h_sink (filter (fun h => h_level h <=? lvl) (l_handlers st)).
