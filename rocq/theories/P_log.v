(** P_log.v -- proofs about the set-up of logging. *)
From Coq Require Import String Ascii ZArith List Bool Lia.
Import ListNotations.
From Verif Require Import M_log S_log.
Open Scope Z_scope.

Lemma level_of_iff s v : level_of s = Some v <-> is_level s v.
Proof.
  split.
  - unfold level_of, level_names. cbn [assoc].
    repeat (match goal with |- (if String.eqb ?a s then _ else _) = _ -> _ => destruct (String.eqb_spec a s) as [<-|_]; [intro H; injection H as <-; constructor|] end). discriminate.
  - intros []; reflexivity.
Qed.
Lemma up_char_iff a b : up_char a = b <-> same_letter a b.
Proof.
  unfold up_char, same_letter. destruct ((97 <=? nat_of_ascii a) && (nat_of_ascii a <=? 122))%nat eqn:E.
  - apply andb_prop in E. destruct E as [E1 E2]. apply Nat.leb_le in E1, E2. split.
    + intros <-. right. split; [lia|]. apply nat_ascii_embedding. lia.
    + intros [[_ H]|[_ H]]; [lia|]. rewrite <- H. apply ascii_nat_embedding.
  - apply andb_false_iff in E. assert (N : ~ (97 <= nat_of_ascii a <= 122)%nat) by (destruct E as [E|E]; apply Nat.leb_gt in E; lia).
    split; [intros <-; left; now split|intros [[<- _]|[H _]]; [reflexivity|contradiction]].
Qed.
Lemma up_iff s t : up s = t <-> capitals s t.
Proof.
  split.
  - intros <-. induction s; cbn [up]; constructor; [now apply up_char_iff|assumption].
  - induction 1; cbn [up]; [reflexivity|]. apply up_char_iff in H. congruence.
Qed.
Lemma names_iff s v : level_of (up s) = Some v <-> names_level s v.
Proof.
  rewrite level_of_iff. unfold names_level. split.
  - intro H. exists (up s). split; [now apply up_iff|exact H].
  - intros (t & C & H). apply up_iff in C. now rewrite C.
Qed.
Lemma assoc_none {A} k (l : list (string * A)) : assoc k l = None <-> forall w, ~ In (k, w) l.
Proof.
  induction l as [|[n v] t IH]; cbn [assoc In]; [split; auto|]. destruct (String.eqb_spec n k) as [->|N].
  - split; [discriminate|]. intro H. exfalso. now apply (H v); left.
  - rewrite IH. split; intros H w; [intros [E|I]; [congruence|now apply (H w)]|intro I; apply (H w); now right].
Qed.
Lemma assoc_some k (l : list (string * string)) v : assoc k l = Some v <-> first_value l k v.
Proof.
  unfold first_value. split.
  - induction l as [|[n w] t IH]; cbn [assoc]; [discriminate|]. destruct (String.eqb_spec n k) as [->|N].
    + intro H. injection H as ->. exists [], t. split; [reflexivity|intros w []].
    + intro H. destruct (IH H) as (a & b & -> & F). exists ((n, w) :: a), b. split; [reflexivity|]. intros w' [E|I]; [congruence|now apply (F w')].
  - intros (a & b & -> & F). induction a as [|[n w] a IH]; cbn [app assoc]; [now rewrite String.eqb_refl|].
    destruct (String.eqb_spec n k) as [->|N]; [exfalso; now apply (F w); left|]. apply IH. intros w' I. apply (F w'). now right.
Qed.
Lemma first_rev l k v : first_value (rev l) k v <-> last_value l k v.
Proof.
  unfold first_value, last_value. split; intros (a & b & E & F); exists (rev b), (rev a).
  - split; [rewrite <- (rev_involutive l), E, rev_app_distr; cbn [rev]; now rewrite <- app_assoc|]. intros w I. apply in_rev in I. now apply (F w).
  - split; [rewrite E, rev_app_distr; cbn [rev]; now rewrite <- app_assoc|]. intros w I. apply in_rev in I. now apply (F w).
Qed.
Lemma setting_iff env dot k d v : match getenv env dot k with Some w => w | None => d end = v <-> setting env dot k d v.
Proof.
  unfold getenv, setting. destruct (assoc k env) as [w|] eqn:E.
  - split; [intros <-; left; now apply assoc_some|]. intros [H|[H _]]; [apply assoc_some in H; congruence|]. apply (assoc_none k env) in H. congruence.
  - pose proof (proj1 (assoc_none k env) E) as N. destruct (assoc k (rev dot)) as [w|] eqn:D.
    + split; [intros <-; right; split; [exact N|]; left; now apply first_rev, assoc_some|].
      intros [H|[_ [H|[H _]]]]; [apply assoc_some in H; congruence|apply first_rev, assoc_some in H; congruence|].
      assert (K : assoc k (rev dot) = None) by (apply assoc_none; intros x I; apply (H x); now apply in_rev). congruence.
    + split; [intros <-; right; split; [exact N|]; right; split; [|reflexivity]; intros x I; apply (proj1 (assoc_none _ _) D x); now apply -> in_rev|].
      intros [H|[_ [H|[_ H]]]]; [apply assoc_some in H; congruence|apply first_rev, assoc_some in H; congruence|now symmetry].
Qed.
Lemma slash_iff p : has_slash p = true <-> in_directory p.
Proof.
  unfold in_directory. split.
  - induction p as [|c p IH]; cbn [has_slash]; [discriminate|]. intro H. apply orb_prop in H. destruct H as [H|H].
    + apply Ascii.eqb_eq in H. subst c. now exists ""%string, p.
    + destruct (IH H) as (a & b & ->). now exists (String c a), b.
  - intros (a & b & ->). induction a as [|c a IH]; [reflexivity|]. cbn [append has_slash] in IH |- *. rewrite IH. apply orb_true_r.
Qed.
Lemma path_iff env dot : (log_path env dot = None <-> setting env dot "FMK_LOG_FILE_PATH" "" "") /\
  forall p, p <> ""%string -> (log_path env dot = Some p <-> setting env dot "FMK_LOG_FILE_PATH" "" p).
Proof.
  split; [|intros p Np]; rewrite <- setting_iff; unfold log_path; destruct (getenv env dot _) as [[|c s]|]; split; congruence.
Qed.
Lemma filter_levels (b f l : Z) p : filter (fun h => h_level h <=? l) [mkH Console b; mkH (File p) f] =
  (if b <=? l then [mkH Console b] else []) ++ (if f <=? l then [mkH (File p) f] else []).
Proof. cbn [filter h_level]. now destruct (b <=? l), (f <=? l). Qed.
Definition noisy_levels : list (list string * Z) := map (fun n => ([n], 30)) (rev noisy).
Lemma own_noisy name : own_level noisy_levels name = match name with [c] => if in_dec string_dec c noisy then 30 else 0 | _ => 0 end.
Proof.
  unfold noisy_levels, noisy. cbn [rev app map]. destruct name as [|c [|c' r]].
  - reflexivity.
  - cbn [own_level]. repeat (match goal with |- (if list_eq_dec string_dec [?a] [c] then _ else _) = _ => destruct (list_eq_dec string_dec [a] [c]) as [E|?] end;
      [injection E as <-; reflexivity|]).
    destruct (in_dec string_dec c _) as [I|_]; [|reflexivity]. cbn [In] in I. exfalso. repeat (destruct I as [<-|I]; [congruence|]). exact I.
  - cbn [own_level]. repeat (match goal with |- (if list_eq_dec string_dec [?a] (c :: c' :: r) then _ else _) = _ => destruct (list_eq_dec string_dec [a] (c :: c' :: r)) as [E|?] end;
      [discriminate|]). reflexivity.
Qed.
(** Effective level after the set-up: 30 below a noisy package, else that of the root. *)
Lemma effective_setup hs root c r : forall fuel, fuel = List.length (c :: r) ->
  effective (mkL hs root (noisy_levels ++ [])) fuel (c :: r) = if in_dec string_dec c noisy then 30 else root.
Proof.
  rewrite app_nil_r. induction r as [|x r IH] using rev_ind; intros fuel ->.
  - cbn [List.length effective l_named]. rewrite own_noisy. cbn [removelast]. destruct (in_dec string_dec c noisy); [reflexivity|]. reflexivity.
  - cbn [List.length]. rewrite app_length. cbn [List.length]. rewrite Nat.add_1_r. change (S (S (List.length r))) with (S (List.length (c :: r))). remember (List.length (c :: r)) as k eqn:Ek. cbn [effective l_named]. rewrite own_noisy.
    assert (E : match c :: r ++ [x] with [c0] => if in_dec string_dec c0 noisy then 30 else 0 | _ => 0 end = 0) by (destruct r; reflexivity).
    rewrite E. cbn [Z.eqb]. rewrite app_comm_cons. rewrite removelast_last. now apply IH.
Qed.
