(** T_log.v -- C179: set-up of logging. *)
From Coq Require Import String Ascii ZArith List Bool Lia.
Import ListNotations.
From Verif Require Import M_log S_log P_log.
Open Scope Z_scope.

(* ================================================================== *)
(** * C179  Logging *)
Definition none_yet : logs := mkL [] 30 [].

(** The set-up succeeds exactly if both level names are known, in whatever case, and the file, if one is named, lies in a directory that exists or can be made. *)
Theorem C179_succeeds : forall env dot mk st ft ct pt, l_handlers st = [] ->
  setting env dot "FMK_FILE_LOGGER_LEVEL" "DEBUG" ft -> setting env dot "FMK_CONSOLE_LOGGER_LEVEL" "INFO" ct -> setting env dot "FMK_LOG_FILE_PATH" "" pt ->
  (fst (setup_logging env dot mk st) = None <->
   (exists a, names_level ft a) /\ (exists b, names_level ct b) /\ (pt = ""%string \/ in_directory pt /\ mk pt = true)).
Proof.
  intros env dot mk st ft ct pt H0 Hf Hc Hp. unfold setup_logging. rewrite H0. cbv zeta. unfold level_text. apply setting_iff in Hf, Hc. rewrite Hf, Hc.
  destruct (level_of (up ft)) as [a|] eqn:Ea; destruct (level_of (up ct)) as [b|] eqn:Eb;
    try (split; [intro H; discriminate|]; intros ((a' & Ha) & (b' & Hb) & _); apply names_iff in Ha, Hb; congruence).
  apply names_iff in Ea, Eb. destruct (string_dec pt "") as [->|Np].
  - rewrite (proj2 (proj1 (path_iff env dot)) Hp). cbn [fst]. split; [|reflexivity]. intros _. repeat split; [now exists a|now exists b|now left].
  - rewrite (proj2 (proj2 (path_iff env dot) pt Np) Hp). destruct (has_slash pt) eqn:Es; cbn [andb].
    + apply slash_iff in Es. destruct (mk pt) eqn:Em; cbn [fst].
      * split; [|reflexivity]. intros _. repeat split; [now exists a|now exists b|now right].
      * split; [discriminate|]. intros (_ & _ & [K|[_ K]]); congruence.
    + cbn [fst]. split; [discriminate|]. intros (_ & _ & [K|[K _]]); [congruence|]. apply slash_iff in K. congruence.
Qed.
Definition l9_env : list (string * string) := [("FMK_FILE_LOGGER_LEVEL", "warning"); ("FMK_LOG_FILE_PATH", "logs/f.log")]%string.
Definition l9_dot : list (string * string) := [("FMK_CONSOLE_LOGGER_LEVEL", "error"); ("FMK_FILE_LOGGER_LEVEL", "nonsense"); ("FMK_CONSOLE_LOGGER_LEVEL", "Debug")]%string.
Lemma l9_settings : setting l9_env l9_dot "FMK_FILE_LOGGER_LEVEL" "DEBUG" "warning" /\ setting l9_env l9_dot "FMK_CONSOLE_LOGGER_LEVEL" "INFO" "Debug" /\
  setting l9_env l9_dot "FMK_LOG_FILE_PATH" "" "logs/f.log".
Proof. repeat split; apply setting_iff; reflexivity. Qed.
Example C179_succeeds_example :
  fst (setup_logging l9_env l9_dot (fun _ => true) none_yet) = None /\ (exists a, names_level "warning" a) /\ in_directory "logs/f.log" /\
  fst (setup_logging l9_env l9_dot (fun _ => false) none_yet) = Some LNoDir /\ fst (setup_logging [] [("FMK_FILE_LOGGER_LEVEL", "loud")]%string (fun _ => true) none_yet) = Some LType.
Proof.
  destruct l9_settings as (A & B & C). pose proof (C179_succeeds l9_env l9_dot (fun _ => true) none_yet _ _ _ eq_refl A B C) as H.
  assert (K : fst (setup_logging l9_env l9_dot (fun _ => true) none_yet) = None) by reflexivity. destruct (proj1 H K) as (Ha & Hb & [D|[D _]]); [discriminate|].
  repeat split; assumption || reflexivity.
Qed.

(** After a successful first set-up every record of a logger outside the five noisy packages is written to the console exactly if it is at least of the level set for
    the console, and to the file exactly if there is one and it is at least of the level set for the file: the level of the root logger loses nothing. Records of the
    noisy packages must besides be warnings. *)
Theorem C179_records : forall env dot mk ft ct pt a b st c r lvl, setting env dot "FMK_FILE_LOGGER_LEVEL" "DEBUG" ft -> setting env dot "FMK_CONSOLE_LOGGER_LEVEL" "INFO" ct ->
  setting env dot "FMK_LOG_FILE_PATH" "" pt -> names_level ft a -> names_level ct b -> setup_logging env dot mk none_yet = (None, st) -> 0 < lvl ->
  let loud := In c ["numba"; "matplotlib"; "pandas"; "numpy"; "urllib3"]%string -> 30 <= lvl in
  (In Console (written st (c :: r) lvl) <-> b <= lvl /\ loud) /\
  (forall p, In (File p) (written st (c :: r) lvl) <-> (pt <> ""%string /\ p = pt) /\ a <= lvl /\ loud) /\ NoDup (written st (c :: r) lvl).
Proof.
  intros env dot mk ft ct pt a b st c r lvl Hf Hc Hp Ha Hb E Hl loud. unfold setup_logging in E. cbn [l_handlers none_yet] in E. cbv zeta in E. unfold level_text in E.
  apply setting_iff in Hf, Hc. rewrite Hf, Hc in E. apply names_iff in Ha, Hb. rewrite Ha, Hb in E. cbn [l_handlers l_root l_named] in E.
  assert (Eff : forall hs root, (lvl <=? 0) || (lvl <? effective (mkL hs root (map (fun n => ([n], 30)) (rev noisy) ++ [])) (List.length (c :: r)) (c :: r)) = true <->
                  ~ ((In c noisy -> 30 <= lvl) /\ (~ In c noisy -> root <= lvl))).
  { intros hs root. change (map (fun n => ([n], 30)) (rev noisy)) with noisy_levels. rewrite (effective_setup hs root c r _ eq_refl).
    replace (lvl <=? 0) with false by (symmetry; apply Z.leb_gt; exact Hl). cbn [orb]. rewrite Z.ltb_lt. destruct (in_dec string_dec c noisy) as [I|I]; split; intro K.
    - intros [K1 _]. specialize (K1 I). lia.
    - destruct (Z.lt_ge_cases lvl 30) as [K'|K']; [exact K'|]. exfalso. apply K. split; [now intros _|contradiction].
    - intros [_ K1]. specialize (K1 I). lia.
    - destruct (Z.lt_ge_cases lvl root) as [K'|K']; [exact K'|]. exfalso. apply K. split; [contradiction|now intros _]. }
  assert (Eff0 : forall hs root, (lvl <=? 0) || (lvl <? effective (mkL hs root (map (fun n => ([n], 30)) (rev noisy) ++ [])) (List.length (c :: r)) (c :: r)) = false ->
                  (In c noisy -> 30 <= lvl)).
  { intros hs root K I. destruct (Z.lt_ge_cases lvl 30) as [K'|K']; [|lia]. exfalso.
    assert (X : ~ ((In c noisy -> 30 <= lvl) /\ (~ In c noisy -> root <= lvl))) by (intros [Y _]; specialize (Y I); lia). apply (Eff hs root) in X. congruence. }
  subst loud. change ["numba"; "matplotlib"; "pandas"; "numpy"; "urllib3"]%string with noisy.
  destruct (string_dec pt "") as [->|Np].
  - rewrite (proj2 (proj1 (path_iff env dot)) Hp) in E. injection E as <-. unfold written. cbn [l_handlers].
    destruct ((lvl <=? 0) || _) eqn:W.
    + apply Eff in W. split; [|split; [|constructor]].
      * split; [intros []|]. intros [K1 K2]. exfalso. apply W. split; [exact K2|]. intros _. lia.
      * intros p. split; [intros []|]. intros [[K _] _]. congruence.
    + pose proof (Eff0 _ _ W) as W0. clear W. rename W0 into W. cbn [filter h_level map h_sink]. destruct (b <=? lvl) eqn:B; cbn [map h_sink].
      * apply Z.leb_le in B. split; [|split; [|repeat constructor; intros []]].
        -- split; [intros _; now split|intros _; now left].
        -- intros p. split; [intros [K|[]]; discriminate|]. intros [[K _] _]. congruence.
      * apply Z.leb_gt in B. split; [|split; [|constructor]].
        -- split; [intros []|intros [K _]; lia].
        -- intros p. split; [intros []|]. intros [[K _] _]. congruence.
  - rewrite (proj2 (proj2 (path_iff env dot) pt Np) Hp) in E. destruct (has_slash pt && mk pt)%bool; [|discriminate]. injection E as <-. unfold written. cbn [l_handlers app].
    destruct ((lvl <=? 0) || _) eqn:W.
    + apply Eff in W. split; [|split; [|constructor]].
      * split; [intros []|]. intros [K1 K2]. exfalso. apply W. split; [exact K2|]. intros _. lia.
      * intros p. split; [intros []|]. intros [_ [K1 K2]]. exfalso. apply W. split; [exact K2|]. intros _. lia.
    + pose proof (Eff0 _ _ W) as W0. clear W. rename W0 into W. rewrite filter_levels, map_app. destruct (b <=? lvl) eqn:B; [apply Z.leb_le in B|apply Z.leb_gt in B];
        (destruct (a <=? lvl) eqn:A; [apply Z.leb_le in A|apply Z.leb_gt in A]); cbn [map app h_sink In].
      * split; [|split].
        -- split; [intros _; now split|intros _; now left].
        -- intros p. split; [intros [K|[K|[]]]; [discriminate|]; injection K as <-; repeat split; assumption|]. intros [[_ ->] _]. right. now left.
        -- repeat constructor; cbn [In]; [intros [K|[]]; discriminate|intros []].
      * split; [|split].
        -- split; [intros _; now split|intros _; now left].
        -- intros p. split; [intros [K|[]]; discriminate|]. intros [_ [K _]]. lia.
        -- repeat constructor; intros [].
      * split; [|split].
        -- split; [intros [K|[]]; discriminate|intros [K _]; lia].
        -- intros p. split; [intros [K|[]]; injection K as <-; repeat split; assumption|]. intros [[_ ->] _]. now left.
        -- repeat constructor; intros [].
      * split; [|split; [|constructor]].
        -- split; [intros []|intros [K _]; lia].
        -- intros p. split; [intros []|]. intros [_ [K _]]. lia.
Qed.
Example C179_records_example : exists st, setup_logging l9_env l9_dot (fun _ => true) none_yet = (None, st) /\
  names_level "warning" 30 /\ names_level "Debug" 10 /\
  written st ["finmlkit"; "bar"]%string 20 = [Console] /\ written st ["finmlkit"]%string 30 = [Console; File "logs/f.log"] /\ written st ["numba"; "core"]%string 20 = [] /\
  In Console (written st ["finmlkit"]%string 10).
Proof.
  eexists. split; [reflexivity|]. split; [now apply names_iff|]. split; [now apply names_iff|]. split; [reflexivity|]. split; [reflexivity|]. split; [reflexivity|].
  destruct l9_settings as (A & B & C).
  refine (proj2 (proj1 (C179_records l9_env l9_dot (fun _ => true) _ _ _ 30 10 _ "finmlkit" [] 10 A B C (proj1 (names_iff "warning" 30) eq_refl) (proj1 (names_iff "Debug" 10) eq_refl) eq_refl ltac:(lia))) _).
  split; [lia|]. intro H. cbn [In] in H. exfalso. repeat (destruct H as [H|H]; [discriminate|]). exact H.
Qed.

(** A logger that has handlers already, from the application or an earlier import, is left alone: any number of modules asking for loggers adds one console
    handler and at most one file handler. *)
Theorem C179_once : forall env dot mk st st', (l_handlers st <> [] -> forall n, get_loggers env dot mk n st = (None, st)) /\
  (setup_logging env dot mk st = (None, st') -> forall n, (0 < n)%nat -> get_loggers env dot mk n st = (None, st')).
Proof.
  intros env dot mk st st'. assert (Keep : forall s, l_handlers s <> [] -> setup_logging env dot mk s = (None, s)) by (intros s Hs; unfold setup_logging; destruct (l_handlers s); [congruence|reflexivity]).
  assert (A : forall s, l_handlers s <> [] -> forall n, get_loggers env dot mk n s = (None, s)).
  { intros s Hs. induction n as [|[|n] IH]; [reflexivity|now apply Keep|]. change (get_loggers env dot mk (S (S n)) s) with (setup_logging env dot mk (snd (get_loggers env dot mk (S n) s))).
    rewrite IH. cbn [snd]. now apply Keep. }
  split; [apply A|]. intros E. assert (Ne : l_handlers st' <> []).
  { unfold setup_logging in E. destruct (l_handlers st) eqn:Eh; [|injection E as <-; congruence]. cbv zeta in E. destruct (level_of _); destruct (level_of _); try discriminate.
    destruct (log_path env dot) as [p|]; [destruct (has_slash p && mk p)%bool; [|discriminate]|]; injection E as <-; discriminate. }
  induction n as [|[|n] IH]; [lia|intros _; exact E|]. intros _. change (get_loggers env dot mk (S (S n)) st) with (setup_logging env dot mk (snd (get_loggers env dot mk (S n) st))).
  rewrite IH by lia. cbn [snd]. now apply Keep.
Qed.
Example C179_once_example : exists st, setup_logging l9_env l9_dot (fun _ => true) none_yet = (None, st) /\ l_handlers st = [mkH Console 10; mkH (File "logs/f.log") 30] /\
  get_loggers l9_env l9_dot (fun _ => true) 25 none_yet = (None, st).
Proof. eexists. split; [reflexivity|]. split; [reflexivity|]. apply (proj2 (C179_once l9_env l9_dot (fun _ => true) none_yet _) eq_refl). lia. Qed.

(** False: a failed set-up leaves nothing behind, so that a second import fails again. A file name without directory raises at first; the second call succeeds and
    nothing is ever written to the file. *)
Theorem C179_failure_refuted : exists env mk st, fst (setup_logging env [] mk none_yet) = Some LNoDir /\ get_loggers env [] mk 2 none_yet = (None, st) /\
  first_value env "FMK_LOG_FILE_PATH" "finmlkit.log" /\ (forall p, mk p = true) /\ written st ["finmlkit"]%string 50 = [Console].
Proof.
  exists [("FMK_LOG_FILE_PATH", "finmlkit.log")]%string, (fun _ => true). eexists. split; [reflexivity|]. split; [reflexivity|]. split; [now apply assoc_some|]. split; [reflexivity|]. reflexivity.
Qed.
(** False: the level of the file does not matter when there is no file. *)
Theorem C179_unused_level_refuted : exists env, (forall w, ~ In ("FMK_LOG_FILE_PATH"%string, w) env) /\ fst (setup_logging env [] (fun _ => true) none_yet) = Some LType.
Proof. exists [("FMK_FILE_LOGGER_LEVEL", "VERBOSE")]%string. split; [|reflexivity]. intros w [E|[]]. discriminate. Qed.

Print Assumptions C179_succeeds.
Print Assumptions C179_records.
Print Assumptions C179_once.
Print Assumptions C179_failure_refuted.
Print Assumptions C179_unused_level_refuted.
