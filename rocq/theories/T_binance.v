(** T_binance.v -- the import script: checksum files (C148). *)
From Coq Require Import Permutation Sorted.
From Verif Require Import Base M_logic M_trades M_store M_tbio M_binance S_binance.
Open Scope Z_scope.

(* ------------------------------------------------------------------ *)
(** ** C148 *)

Lemma is_word_iff c : is_word c = true <-> wordc c.
Proof. unfold is_word, is_digit, wordc. rewrite !orb_true_iff, !andb_true_iff, !Z.leb_le, Z.eqb_eq. tauto. Qed.
Lemma is_hex_iff c : is_hex c = true <-> hexc c.
Proof. unfold is_hex, is_digit, hexc. rewrite !orb_true_iff, !andb_true_iff, !Z.leb_le. tauto. Qed.
Lemma hex_word c : hexc c -> wordc c.
Proof. unfold hexc, wordc. lia. Qed.
Lemma forallb_hex l : forallb is_hex l = true <-> Forall hexc l.
Proof. rewrite forallb_forall, Forall_forall. split; intros H c Hc; apply is_hex_iff; auto. Qed.
Definition nonword (o : option Z) : Prop := match o with Some c => ~ wordc c | None => True end.
Lemma is_word_false c : is_word c = false <-> ~ wordc c.
Proof. rewrite <- is_word_iff. destruct (is_word c); split; congruence. Qed.
Lemma hex_here_iff n prev s : (0 < n)%nat ->
  (hex_here n prev s = true <-> exists w b, s = w ++ b /\ length w = n /\ Forall hexc w /\ nonword prev /\ nonword (hd_error b)).
Proof.
  intro Hn. unfold hex_here, boundary. rewrite !andb_true_iff, Nat.leb_le, forallb_hex. split.
  - intros [[[B1 L] Hx] B2]. exists (firstn n s), (skipn n s). split; [symmetry; apply firstn_skipn|]. split; [rewrite firstn_length; lia|]. split; [exact Hx|].
    destruct s as [|c s]; [cbn in L; lia|]. destruct n as [|n]; [lia|]. cbn [hd_error] in B1. cbn [firstn] in Hx. pose proof (Forall_inv Hx) as Hc. apply hex_word, is_word_iff in Hc. rewrite Hc in B1.
    split; [destruct prev as [p|]; [|exact I]; cbn; apply is_word_false; now destruct (is_word p)|].
    replace (S n - 1)%nat with n in B2 by lia.
    assert (E : exists e, nth_error (c :: s) n = Some e) by (destruct (nth_error (c :: s) n) eqn:K; [eauto|]; apply nth_error_None in K; lia).
    destruct E as [e E]. rewrite E in B2.
    assert (He : is_word e = true). { apply is_word_iff, hex_word. rewrite Forall_forall in Hx. apply Hx. change (c :: firstn n s) with (firstn (S n) (c :: s)).
      apply (nth_error_In _ n). rewrite <- E. rewrite <- (firstn_skipn (S n) (c :: s)) at 2. symmetry. apply nth_error_app1. rewrite firstn_length. lia. }
    rewrite He in B2. assert (hd_error (skipn (S n) (c :: s)) = nth_error (c :: s) (S n)) as ->.
    { rewrite <- (firstn_skipn (S n) (c :: s)) at 2. rewrite nth_error_app2 by (rewrite firstn_length; lia). rewrite firstn_length. replace (S n - Nat.min (S n) (length (c :: s)))%nat with 0%nat by lia. now destruct (skipn (S n) (c :: s)). }
    destruct (nth_error (c :: s) (S n)) as [e'|]; [|exact I]. cbn. apply is_word_false. now destruct (is_word e').
  - intros [w [b [-> [L [Hx [P B]]]]]]. rewrite firstn_app, L, Nat.sub_diag, firstn_all2, app_nil_r by lia. rewrite app_length, L.
    split; [split; [split; [|lia]|exact Hx]|].
    + destruct w as [|c w]; [cbn in L; lia|]. cbn [app hd_error]. pose proof (Forall_inv Hx) as Hc. apply hex_word, is_word_iff in Hc. rewrite Hc. destruct prev as [p|]; [|reflexivity]. cbn in P. apply is_word_false in P. now rewrite P.
    + rewrite nth_error_app1 by lia. rewrite nth_error_app2 by lia. rewrite L, Nat.sub_diag.
      assert (E : exists e, nth_error w (n - 1) = Some e) by (destruct (nth_error w (n - 1)) eqn:K; [eauto|]; apply nth_error_None in K; lia).
      destruct E as [e E]. rewrite E. assert (He : is_word e = true). { apply is_word_iff, hex_word. rewrite Forall_forall in Hx. apply Hx. now apply (nth_error_In _ (n - 1)). }
      rewrite He. destruct b as [|e' b]; [reflexivity|]. cbn in B. cbn [nth_error]. apply is_word_false in B. now rewrite B.
Qed.
(** A match after [a]. *)
Definition match_after (n : nat) (prev : option Z) (s a w b : key) : Prop :=
  s = a ++ w ++ b /\ length w = n /\ Forall hexc w /\ nonword (match rev a with c :: _ => Some c | [] => prev end) /\ nonword (hd_error b).
Lemma match_step n prev c s a w b : match_after n (Some c) s a w b -> match_after n prev (c :: s) (c :: a) w b.
Proof.
  intros [-> [L [H [P B]]]]. split; [reflexivity|]. split; [exact L|]. split; [exact H|]. split; [|exact B]. cbn [rev]. destruct (rev a) as [|x r]; [exact P|]. exact P.
Qed.
Lemma match_step_inv n prev c s a w b : match_after n prev (c :: s) (c :: a) w b -> match_after n (Some c) s a w b.
Proof.
  intros [E [L [H [P B]]]]. cbn [app] in E. injection E as E. split; [exact E|]. split; [exact L|]. split; [exact H|]. split; [|exact B]. cbn [rev] in P. destruct (rev a) as [|x r]; [exact P|]. exact P.
Qed.
Lemma findall_head n : (0 < n)%nat -> forall s fuel prev, (length s <= fuel)%nat ->
  match findall fuel n prev s with
  | [] => forall a w b, ~ match_after n prev s a w b
  | w :: _ => exists a b, match_after n prev s a w b /\ forall a' w' b', match_after n prev s a' w' b' -> (length a <= length a')%nat
  end.
Proof.
  intros Hn. induction s as [|c s IH]; intros fuel prev Hf.
  - destruct fuel; cbn [findall]; intros a w b [E [L _]]; symmetry in E; apply app_eq_nil in E; destruct E as [_ E]; apply app_eq_nil in E; destruct E as [-> _]; cbn in L; lia.
  - destruct fuel as [|fuel]; [cbn in Hf; lia|]. cbn [findall]. destruct (hex_here n prev (c :: s)) eqn:Hh.
    + apply hex_here_iff in Hh; [|exact Hn]. destruct Hh as [w [b [E [L [H [P B]]]]]]. rewrite E. rewrite firstn_app, L, Nat.sub_diag, firstn_all2 by lia. cbn [firstn]. rewrite app_nil_r.
      exists [], b. split; [split; [reflexivity|]; split; [exact L|]; split; [exact H|]; split; [exact P|exact B]|]. intros; cbn; lia.
    + assert (N : forall w b, ~ match_after n prev (c :: s) [] w b).
      { intros w b [E [L [H [P B]]]]. assert (hex_here n prev (c :: s) = true) by (apply hex_here_iff; [exact Hn|]; exists w, b; repeat split; auto). congruence. }
      specialize (IH fuel (Some c) ltac:(cbn in Hf; lia)). destruct (findall fuel n (Some c) s) as [|w ws].
      * intros a w b M. destruct a as [|x a]; [exact (N w b M)|]. assert (x = c) as -> by (destruct M as [E _]; cbn in E; injection E as E1 E2; auto). apply match_step_inv in M. exact (IH a w b M).
      * destruct IH as [a [b [M Min]]]. exists (c :: a), b. split; [now apply match_step|]. intros a' w' b' M'. destruct a' as [|x a']; [exfalso; exact (N w' b' M')|].
        assert (x = c) as -> by (destruct M' as [E _]; cbn in E; injection E as E1 E2; auto). apply match_step_inv in M'. specialize (Min a' w' b' M'). cbn [length]. lia.
Qed.
Lemma match_hexword n s a w b : (0 < n)%nat -> match_after n None s a w b <-> hexword n s a w b.
Proof.
  intro Hn. split.
  - intros [-> [L [H [P B]]]]. split; [|auto]. split; [reflexivity|]. split; [destruct w; [cbn in L; lia|discriminate]|]. split; [eapply Forall_impl; [|exact H]; apply hex_word|]. split.
    + intros a' c ->. rewrite rev_unit in P. exact P.
    + intros c b' ->. exact B.
  - intros [[-> [Hw [W [P B]]]] [L H]]. split; [reflexivity|]. split; [exact L|]. split; [exact H|]. split.
    + destruct (rev a) as [|c r] eqn:E; [exact I|]. apply (P (rev r) c). rewrite <- (rev_involutive a), E. reflexivity.
    + destruct b as [|c b]; [exact I|]. exact (B c b eq_refl).
Qed.
Lemma findall_first n s w : (0 < n)%nat -> (exists l, findall (length s) n None s = w :: l) <-> first_hexword n s w.
Proof.
  intro Hn. pose proof (findall_head n Hn s (length s) None (le_n _)) as F. split.
  - intros [l E]. rewrite E in F. destruct F as [a [b [M Min]]]. exists a, b. split; [now apply match_hexword|]. intros a' w' b' H. apply (Min a' w' b'). now apply match_hexword.
  - intros [a [b [H Min]]]. destruct (findall (length s) n None s) as [|v l]; [exfalso; apply (F a w b); now apply match_hexword|].
    destruct F as [a2 [b2 [M2 Min2]]]. apply match_hexword in M2; [|exact Hn]. pose proof (Min _ _ _ M2). assert (M := H). apply match_hexword in M; [|exact Hn]. pose proof (Min2 _ _ _ M).
    exists l. f_equal. destruct H as [[E _] [L _]]. destruct M2 as [[E2 _] [L2 _]]. assert (length a = length a2) as K by lia.
    rewrite E in E2. assert (a = a2) as ->. { apply (f_equal (firstn (length a))) in E2. rewrite firstn_app, Nat.sub_diag, firstn_all in E2. cbn [firstn] in E2. rewrite app_nil_r in E2. rewrite K in E2. rewrite firstn_app, Nat.sub_diag, firstn_all in E2. cbn [firstn] in E2. now rewrite app_nil_r in E2. }
    apply app_inv_head in E2. apply (f_equal (firstn n)) in E2. rewrite !firstn_app, L, L2, Nat.sub_diag in E2. cbn [firstn] in E2. rewrite !app_nil_r in E2. rewrite !firstn_all2 in E2 by lia. congruence.
Qed.
Lemma lower_spec w d : lower_of w d <-> d = map lower w.
Proof.
  assert (G : forall c l, ((65 <= c <= 90 /\ l = c + 32) \/ (~ 65 <= c <= 90 /\ l = c)) <-> l = lower c).
  { intros c l. unfold lower. destruct (Z.leb_spec 65 c); destruct (Z.leb_spec c 90); cbn [andb]; lia. }
  unfold lower_of. revert d. induction w as [|c w IH]; intro d.
  - split; [intro H; inversion H; reflexivity|]. intros ->. constructor.
  - split; [intro H; inversion H; subst; cbn [map]; f_equal; [now apply G|now apply IH]|]. intros ->. cbn [map]. constructor; [now apply G|now apply IH].
Qed.
(** The digest of a checksum file is its first word of 64 hexadecimal digits, if there is
    none the first word of 32, in lower case. *)
Theorem C148_digest : forall s d, read_checksum (Some s) = Some d <->
  (exists w, first_hexword 64 s w /\ lower_of w d) \/
  ((forall a w b, ~ hexword 64 s a w b) /\ exists w, first_hexword 32 s w /\ lower_of w d).
Proof.
  intros s d. unfold read_checksum.
  assert (F64 : forall w, (exists l, findall (length s) 64 None s = w :: l) <-> first_hexword 64 s w) by (intro w; apply findall_first; lia).
  assert (F32 : forall w, (exists l, findall (length s) 32 None s = w :: l) <-> first_hexword 32 s w) by (intro w; apply findall_first; lia).
  assert (N64 : findall (length s) 64 None s = [] <-> forall a w b, ~ hexword 64 s a w b).
  { pose proof (findall_head 64 ltac:(lia) s (length s) None (le_n _)) as F. split.
    - intros E a w b H. rewrite E in F. apply (F a w b). apply match_hexword; [lia|exact H].
    - intro H. destruct (findall (length s) 64 None s) as [|w l]; [reflexivity|]. destruct F as [a [b [M _]]]. exfalso. apply (H a w b). apply match_hexword; [lia|exact M]. }
  destruct (findall (length s) 64 None s) as [|w l] eqn:E.
  - split.
    + intro H. right. split; [now apply N64|]. destruct (findall (length s) 32 None s) as [|w l]; [discriminate|]. exists w. split; [apply F32; eauto|]. apply lower_spec. congruence.
    + intros [[w [H L]]|[_ [w [H L]]]]; [apply F64 in H; destruct H; discriminate|]. apply F32 in H. destruct H as [l ->]. apply lower_spec in L. now subst.
  - split.
    + intro H. left. exists w. split; [apply F64; eauto|]. apply lower_spec. congruence.
    + intros [[w' [H L]]|[H _]]; [|apply N64 in H; discriminate]. apply F64 in H. destruct H as [l' H]. injection H as <- <-. apply lower_spec in L. now subst.
Qed.
Lemma key_eqb_iff a b : key_eqb a b = true <-> a = b.
Proof.
  revert b. induction a as [|x a IH]; intros [|y b]; cbn [key_eqb]; split; intro H; try discriminate; try reflexivity.
  - apply andb_true_iff in H. destruct H as [H1 H2]. apply Z.eqb_eq in H1. apply IH in H2. congruence.
  - injection H as -> ->. rewrite Z.eqb_refl. now apply IH.
Qed.
(** A file is rejected exactly if its checksum file has a digest and neither of its hashes
    is that digest. *)
Theorem C148_verify : forall content sha md5, verify_checksum content sha md5 = false <->
  exists d, read_checksum content = Some d /\ forall h, sha = Some h \/ md5 = Some h -> h <> [] -> ~ lower_of h d.
Proof.
  intros content sha md5. unfold verify_checksum. destruct (read_checksum content) as [d|]; [|split; [discriminate|intros [d [H _]]; discriminate]].
  assert (G : forall o : option key, (match o with Some (c :: r) => key_eqb (map lower (c :: r)) d | _ => false end) = true <-> exists h, o = Some h /\ h <> [] /\ lower_of h d).
  { intros [[|c r]|]; split; try discriminate; try (intros [h [H _]]; congruence).
    - intros [h [H [K _]]]. congruence.
    - intro H. exists (c :: r). split; [reflexivity|]. split; [discriminate|]. apply lower_spec. apply key_eqb_iff in H. congruence.
    - intros [h [H [_ K]]]. injection H as <-. apply lower_spec in K. apply key_eqb_iff. now subst. }
  rewrite <- not_true_iff_false. cbn [existsb]. rewrite orb_false_r, orb_true_iff, !G. split.
  - intro H. exists d. split; [reflexivity|]. intros h Hh Hn L. apply H. destruct Hh as [->| ->]; [left|right]; eauto.
  - intros [d' [E H]]. injection E as <-. intros [[h [-> [Hn L]]]|[h [-> [Hn L]]]]; apply (H h); auto.
Qed.
(** Not every accepted file was verified: a checksum file that is missing, empty, or whose
    digest is glued to another word, accepts every file. *)
Theorem C148_unverified_refuted : exists s sha md5, verify_checksum (Some s) (Some sha) (Some md5) = true /\
  length sha = 64%nat /\ length md5 = 32%nat /\ (exists w b, s = w ++ 95 :: b /\ length w = 64%nat /\ Forall hexc w) /\
  (forall a b, s <> a ++ sha ++ b) /\ (forall a b, s <> a ++ md5 ++ b).
Proof.
  exists (repeat 97 64 ++ [95; 120]), (repeat 98 64), (repeat 99 32). split; [vm_compute; reflexivity|]. do 2 (split; [reflexivity|]).
  split; [exists (repeat 97 64), [120]; split; [reflexivity|]; split; [reflexivity|]; apply Forall_forall; intros c Hc; apply repeat_spec in Hc; subst; unfold hexc; lia|].
  split; intros a b E.
  - assert (H : In 98 (repeat 97 64 ++ [95; 120])) by (rewrite E; apply in_or_app; right; apply in_or_app; left; now left).
    apply in_app_or in H. destruct H as [H|[H|[H|[]]]]; [apply repeat_spec in H|..]; lia.
  - assert (H : In 99 (repeat 97 64 ++ [95; 120])) by (rewrite E; apply in_or_app; right; apply in_or_app; left; now left).
    apply in_app_or in H. destruct H as [H|[H|[H|[]]]]; [apply repeat_spec in H|..]; lia.
Qed.
Example C148_example :
  read_checksum (Some ([120; 32] ++ repeat 99 32 ++ [32] ++ repeat 65 64 ++ [32; 32; 66; 46; 122])) = Some (repeat 97 64) /\
  first_hexword 64 ([120; 32] ++ repeat 99 32 ++ [32] ++ repeat 65 64 ++ [32; 32; 66; 46; 122]) (repeat 65 64) /\
  verify_checksum (Some (repeat 65 64 ++ [32; 66])) (Some (repeat 97 64)) None = true /\
  verify_checksum (Some (repeat 65 64 ++ [32; 66])) (Some (repeat 98 64)) (Some (repeat 97 32)) = false /\
  verify_checksum None (Some (repeat 98 64)) None = true.
Proof.
  split; [vm_compute; reflexivity|]. split; [apply findall_first; [lia|]; eexists; vm_compute; reflexivity|]. repeat split; vm_compute; reflexivity.
Qed.

(* ------------------------------------------------------------------ *)
(** ** C149 *)

Lemma whole_iff q : whole q = true <-> exists z, (q == inject_Z z)%Q.
Proof.
  unfold whole. rewrite Z.eqb_eq. split.
  - intro H. exists (Qnum (Qred q)). rewrite <- (Qred_correct q) at 1. destruct (Qred q) as [n d]. cbn [Qden Qnum] in *. injection H as ->. reflexivity.
  - intros [z E]. rewrite (Qred_complete _ _ E). unfold inject_Z, Qred. pose proof (Z.ggcd_gcd z 1) as G. pose proof (Z.ggcd_correct_divisors z 1) as D. destruct (Z.ggcd z 1) as [g [a b]]. cbn [fst] in G. rewrite Z.gcd_1_r in G. destruct D as [_ D]. rewrite G, Z.mul_1_l in D. rewrite <- D. reflexivity.
Qed.
Lemma existsb_none {A} (f : A -> bool) l : (forall x, In x l -> f x = false) -> existsb f l = false.
Proof. induction l as [|x l IH]; intro H; [reflexivity|]. cbn [existsb]. rewrite H by now left. apply IH. intros; apply H; now right. Qed.
Lemma int_col_ints l : int_col (map CInt l) = Ok l.
Proof.
  unfold int_col. rewrite existsb_none.
  - rewrite existsb_none; [|intros x Hx; apply in_map_iff in Hx; destruct Hx as [z [<- _]]; reflexivity].
    replace (forallb _ (map CInt l)) with true; [rewrite map_map; f_equal; apply map_id|]. symmetry. apply forallb_forall. intros x Hx. apply in_map_iff in Hx. destruct Hx as [z [<- _]]. reflexivity.
  - intros x Hx. apply in_map_iff in Hx. destruct Hx as [z [<- _]]. cbn [to_num]. assert (W : whole (inject_Z z) = true) by (apply whole_iff; exists z; reflexivity). now rewrite W.
Qed.
Lemma int_col_bad l c : In c l -> not_int c -> exists e, int_col l = Raise e.
Proof.
  intros Hc N. unfold int_col. destruct (existsb _ l) eqn:E1; [eauto|]. destruct (existsb (fun c0 => match to_num c0 with Some _ => false | None => true end) l) eqn:E2; [eauto|].
  exfalso. rewrite <- not_true_iff_false in E1, E2. destruct c as [z|q| | |]; cbn in N; try tauto.
  - apply E1. apply existsb_exists. exists (CNum q). split; [exact Hc|]. cbn [to_num]. destruct (whole q) eqn:W; [|reflexivity]. apply whole_iff in W. destruct W as [z W]. exfalso. exact (N z W).
  - apply E2. apply existsb_exists. eexists. split; [exact Hc|reflexivity].
  - apply E2. apply existsb_exists. eexists. split; [exact Hc|reflexivity].
  - apply E2. apply existsb_exists. eexists. split; [exact Hc|reflexivity].
Qed.
Lemma col_map {A} (g : crow -> A) (P : list cell -> crow -> Prop) (f : list cell -> A) t cs :
  Forall2 P t cs -> (forall r c, P r c -> f r = g c) -> map f t = map g cs.
Proof. intros F H. induction F as [|r c t cs Hr F IH]; [reflexivity|]. cbn [map]. rewrite IH, (H r c Hr). reflexivity. Qed.
Lemma nth_of_error {A} (l : list A) n x d : nth_error l n = Some x -> nth n l d = x.
Proof. revert l. induction n as [|n IH]; intros [|y l] H; try discriminate; cbn in *; [congruence|auto]. Qed.
Lemma num_cell_num x q : num_cell x q -> to_num x = Some q.
Proof. intros [[z [-> ->]]| ->]; reflexivity. Qed.
Lemma flag_words t cs : Forall2 (reads word_flag) t cs -> flag_col (map (fun r => nth 5 r CEmpty) t) = map c_maker cs.
Proof.
  intro F. unfold flag_col. rewrite map_map. apply (col_map c_maker (reads word_flag)); [exact F|]. intros r c [_ [_ [_ [_ [x [E W]]]]]]. rewrite (nth_of_error _ _ _ CEmpty E).
  destruct W as [->|[[-> ->]|[w [l [-> [L B]]]]]]; [reflexivity|reflexivity|]. apply lower_spec in L. subst l. apply eq_true_iff_eq. rewrite B. unfold truths. cbn [existsb]. rewrite !orb_true_iff, !key_eqb_iff. split; [intros [H|[H|[H|[H|H]]]]; [tauto..|discriminate]|tauto].
Qed.
Lemma flag_ints t cs : Forall2 (reads int_flag) t cs -> flag_col (map (fun r => nth 5 r CEmpty) t) = map c_maker cs.
Proof.
  intro F. unfold flag_col. rewrite map_map.
  assert (I : forallb (fun c => match c with CInt _ => true | _ => false end) (map (fun r => nth 5 r CEmpty) t) = true).
  { apply forallb_forall. intros x Hx. apply in_map_iff in Hx. destruct Hx as [r [<- Hr]]. clear -F Hr. induction F as [|r' c t cs H F IH]; [destruct Hr|]. destruct Hr as [->|Hr]; [|auto].
    destruct H as [_ [_ [_ [_ [x [E [z [-> _]]]]]]]]. now rewrite (nth_of_error _ _ _ CEmpty E). }
  rewrite I. cbn [orb andb]. apply (col_map c_maker (reads int_flag)); [exact F|]. intros r c [_ [_ [_ [_ [x [E [z [-> B]]]]]]]]. rewrite (nth_of_error _ _ _ CEmpty E).
  apply eq_true_iff_eq. rewrite B. apply Z.eqb_eq.
Qed.
Lemma rows_back cs : map (fun i => mkC (nth i (map c_time cs) 0) (nth i (map c_price cs) None) (nth i (map c_qty cs) None) (nth i (map c_id cs) 0) (nth i (map c_maker cs) false)) (seq 0 (length cs)) = cs.
Proof.
  induction cs as [|c cs IH]; [reflexivity|]. cbn [length seq map nth]. f_equal; [now destruct c|]. rewrite <- seq_shift, map_map. exact IH.
Qed.
(** A file of six or seven columns with integer ids and times is read row by row. *)
Theorem C149_rows : forall sort table cs, holds table cs -> load_csv sort table = Ok (sort cs).
Proof.
  intros sort table cs [Hn [[w [Hw Hl]] F]].
  assert (G : exists flag, Forall2 (reads flag) table cs) by (destruct F; eauto). destruct G as [flag G].
  assert (FL : flag_col (map (fun r => nth 5 r CEmpty) table) = map c_maker cs) by (destruct F; [now apply flag_words|now apply flag_ints]).
  assert (LEN : length table = length cs) by (clear -G; induction G; cbn; auto).
  unfold load_csv. destruct table as [|r0 t]; [congruence|]. rewrite (Hl r0) by now left. replace ((w <? 6) || (7 <? w))%nat%bool with false by (destruct Hw; subst w; reflexivity).
  cbv zeta. set (T := r0 :: t) in *. clearbody T.
  replace (map (fun r => nth 4 r CEmpty) T) with (map CInt (map c_time cs)).
  2:{ rewrite map_map. symmetry. apply (col_map (fun c => CInt (c_time c)) (reads flag)); [exact G|]. intros r c [_ [E _]]. now apply nth_of_error. }
  replace (map (fun r => nth 0 r CEmpty) T) with (map CInt (map c_id cs)).
  2:{ rewrite map_map. symmetry. apply (col_map (fun c => CInt (c_id c)) (reads flag)); [exact G|]. intros r c [E _]. now apply nth_of_error. }
  rewrite !int_col_ints. rewrite !map_map, FL, LEN.
  rewrite (col_map c_price (reads flag) (fun r => to_num (nth 1 r CEmpty)) T cs G) by (intros r c [_ [_ [[x [p [E [N P]]]] _]]]; rewrite (nth_of_error _ _ _ CEmpty E), (num_cell_num _ _ N); congruence).
  rewrite (col_map c_qty (reads flag) (fun r => to_num (nth 2 r CEmpty)) T cs G) by (intros r c [_ [_ [_ [[x [p [E [N P]]]] _]]]]; rewrite (nth_of_error _ _ _ CEmpty E), (num_cell_num _ _ N); congruence).
  now rewrite rows_back.
Qed.
(** ... so the result is the file's trades in the order of time. *)
Theorem C149_sorted : forall sort table cs out, sorts_ctime sort -> holds table cs -> load_csv sort table = Ok out ->
  Permutation cs out /\ StronglySorted (fun a b => c_time a <= c_time b) out.
Proof. intros sort table cs out Hs H E. rewrite (C149_rows sort _ _ H) in E. injection E as <-. apply Hs. Qed.
(** Other shapes and other times or ids are errors. *)
Theorem C149_errors : forall sort table,
  (forall r t, table = r :: t -> (length r < 6 \/ 7 < length r)%nat -> load_csv sort table = Raise ValueError) /\
  (forall r j, In r table -> (j = 0 \/ j = 4)%nat -> not_int (nth j r CEmpty) -> exists e, load_csv sort table = Raise e).
Proof.
  intros sort table. split.
  - intros r t -> H. unfold load_csv. replace ((length r <? 6) || (7 <? length r))%nat%bool with true; [reflexivity|]. symmetry. rewrite orb_true_iff, !Nat.ltb_lt. exact H.
  - intros r j Hr Hj N. unfold load_csv. destruct table as [|r0 t]; [destruct Hr|]. destruct ((length r0 <? 6) || (7 <? length r0))%nat%bool; [eauto|]. cbv zeta. set (T := r0 :: t) in *. clearbody T.
    assert (B : exists e, int_col (map (fun r => nth j r CEmpty) T) = Raise e) by (eapply int_col_bad; [|exact N]; apply in_map_iff; eauto).
    destruct B as [e B]. destruct Hj as [-> | ->].
    + destruct (int_col (map (fun r1 => nth 4 r1 CEmpty) T)); [rewrite B|]; eauto.
    + rewrite B. eauto.
Qed.
Definition csv_row (i p q t : Z) (m : cell) : list cell := [CInt i; CInt p; CInt q; CInt (p * q); CInt t; m].
(** A stable sort by time. *)
Fixpoint ins_ct (r : crow) (l : list crow) : list crow :=
  match l with [] => [r] | x :: l' => if c_time r <=? c_time x then r :: l else x :: ins_ct r l' end.
Definition csort (l : list crow) : list crow := fold_right ins_ct [] l.
(** A sort by time that reverses rows of equal time. *)
Fixpoint ins_cr (r : crow) (l : list crow) : list crow :=
  match l with [] => [r] | x :: l' => if c_time r <? c_time x then r :: l else x :: ins_cr r l' end.
Definition crsort (l : list crow) : list crow := fold_right ins_cr [] l.
Lemma csort_ok : sorts_ctime csort.
Proof.
  assert (P : forall r l, Permutation (r :: l) (ins_ct r l)).
  { intros r l. induction l as [|x l IH]; cbn; [auto|]. destruct (_ <=? _); [auto|]. eapply perm_trans; [apply perm_swap|]. now apply perm_skip. }
  intro l. induction l as [|x l [IH1 IH2]]; cbn; [split; constructor|]. split; [eapply perm_trans; [apply perm_skip; exact IH1|apply P]|].
  change (fold_right ins_ct [] l) with (csort l). revert IH2. generalize (csort l). intros m H. induction H as [|y m S' IH F]; cbn; [constructor; constructor|]. destruct (Z.leb_spec (c_time x) (c_time y)).
  - constructor; [constructor; auto|]. constructor; [auto|]. eapply Forall_impl; [|exact F]. cbn. intros; lia.
  - constructor; [auto|]. rewrite Forall_forall in *. intros z Hz. apply (Permutation_in z (Permutation_sym (P x m))) in Hz. destruct Hz as [<-|Hz]; [lia|auto].
Qed.
Lemma crsort_ok : sorts_ctime crsort.
Proof.
  assert (P : forall r l, Permutation (r :: l) (ins_cr r l)).
  { intros r l. induction l as [|x l IH]; cbn; [auto|]. destruct (_ <? _); [auto|]. eapply perm_trans; [apply perm_swap|]. now apply perm_skip. }
  intro l. induction l as [|x l [IH1 IH2]]; cbn; [split; constructor|]. split; [eapply perm_trans; [apply perm_skip; exact IH1|apply P]|].
  change (fold_right ins_cr [] l) with (crsort l). revert IH2. generalize (crsort l). intros m H. induction H as [|y m S' IH F]; cbn; [constructor; constructor|]. destruct (Z.ltb_spec (c_time x) (c_time y)).
  - constructor; [constructor; auto|]. constructor; [lia|]. eapply Forall_impl; [|exact F]. cbn. intros; lia.
  - constructor; [auto|]. rewrite Forall_forall in *. intros z Hz. apply (Permutation_in z (Permutation_sym (P x m))) in Hz. destruct Hz as [<-|Hz]; [lia|auto].
Qed.
(** Files with a header line cannot be read, though the rows below it can. *)
Theorem C149_header_refuted : exists hdr table cs, Forall (fun c => exists t, c = CText t) hdr /\ length hdr = 6%nat /\ holds table cs /\
  load_csv csort table = Ok cs /\ load_csv csort (hdr :: table) = Raise ValueError.
Proof.
  exists (repeat (CText [105; 100]) 6), [csv_row 1 100 2 1000 (CBool true)], [mkC 1000 (Some 100%Q) (Some 2%Q) 1 true].
  split; [apply Forall_forall; intros c Hc; apply repeat_spec in Hc; subst; eauto|]. split; [reflexivity|]. split; [|split; vm_compute; reflexivity].
  split; [discriminate|]. split; [exists 6%nat; split; [auto|]; intros r [<-|[]]; reflexivity|]. left. constructor; [|constructor].
  split; [reflexivity|]. split; [reflexivity|]. split; [eexists; eexists; split; [reflexivity|]; split; [left; eauto|reflexivity]|]. split; [eexists; eexists; split; [reflexivity|]; split; [left; eauto|reflexivity]|]. eexists. split; [reflexivity|]. left. reflexivity.
Qed.
(** A missing flag changes the flags of other rows: the column becomes float and "1.0" is
    not a truth value. *)
Theorem C149_flags_refuted : exists r1 r2 c1 c1' c2', load_csv csort [r1] = Ok [c1] /\ load_csv csort [r1; r2] = Ok [c1'; c2'] /\
  nth 5 r1 CEmpty = CInt 1 /\ c_maker c1 = true /\ c_maker c1' = false.
Proof.
  exists (csv_row 1 100 2 1000 (CInt 1)), (csv_row 2 100 2 1001 CEmpty). do 3 eexists. split; [vm_compute; reflexivity|]. split; [vm_compute; reflexivity|]. repeat split.
Qed.
(** Prices that are no numbers are not rejected but missing. *)
Theorem C149_price_refuted : exists r t c, nth 1 r CEmpty = CText t /\ load_csv csort [r] = Ok [c] /\ c_price c = None.
Proof. exists [CInt 1; CText [120]; CInt 2; CInt 2; CInt 1000; CBool true]. do 2 eexists. split; [reflexivity|]. split; [vm_compute; reflexivity|reflexivity]. Qed.
Example C149_example :
  let table := [csv_row 7 100 2 1001 (CText [84; 82; 85; 69]); csv_row 5 101 3 1000 (CBool false)] in
  holds table [mkC 1001 (Some 100%Q) (Some 2%Q) 7 true; mkC 1000 (Some 101%Q) (Some 3%Q) 5 false] /\
  load_csv csort table = Ok [mkC 1000 (Some 101%Q) (Some 3%Q) 5 false; mkC 1001 (Some 100%Q) (Some 2%Q) 7 true] /\
  (exists e, load_csv csort [[CInt 1; CInt 1; CInt 1; CInt 1; CNum (1 # 2); CBool true]] = Raise e).
Proof.
  cbv zeta. split; [|split; [vm_compute; reflexivity|eexists; vm_compute; reflexivity]]. split; [discriminate|].
  split; [exists 6%nat; split; [auto|]; intros r [<-|[<-|[]]]; reflexivity|]. left.
  constructor; [|constructor; [|constructor]]; (split; [reflexivity|]); (split; [reflexivity|]);
    (split; [eexists; eexists; split; [reflexivity|]; split; [left; eauto|reflexivity]|]); (split; [eexists; eexists; split; [reflexivity|]; split; [left; eauto|reflexivity]|]); eexists; (split; [reflexivity|]).
  - right. right. exists [84; 82; 85; 69], [116; 114; 117; 101]. split; [reflexivity|]. split; [apply lower_spec; reflexivity|]. tauto.
  - left. reflexivity.
Qed.

Print Assumptions C148_digest.
Print Assumptions C148_verify.
Print Assumptions C148_unverified_refuted.
Print Assumptions C149_rows.
Print Assumptions C149_sorted.
Print Assumptions C149_errors.
Print Assumptions C149_header_refuted.
Print Assumptions C149_flags_refuted.
Print Assumptions C149_price_refuted.
