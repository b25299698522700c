(** P_download.v -- lemmas about the downloads of the import script. *)
From Coq Require Import String.
From Verif Require Import Base M_logic M_store P_store M_tbio M_binance M_download S_download.
Open Scope Z_scope.
Open Scope list_scope.

(* ------------------------------------------------------------------ *)
(** ** Names *)

Lemma existsb_slash s : existsb (Z.eqb 47) s = true <-> In 47 s.
Proof. rewrite existsb_exists. split; [intros [x [H E]]; apply Z.eqb_eq in E; now subst|intro H; exists 47; split; [exact H|reflexivity]]. Qed.
Lemma basename_app a f : ~ In 47 f -> basename (a ++ 47 :: f) = f.
Proof.
  intro H. induction a as [|x a IH].
  - cbn [app basename]. destruct (existsb (Z.eqb 47) f) eqn:E; [apply existsb_slash in E; contradiction|reflexivity].
  - cbn [app basename]. assert (E : existsb (Z.eqb 47) (a ++ 47 :: f) = true) by (apply existsb_slash, in_or_app; right; now left). now rewrite E.
Qed.
Lemma digit_bounds y m d : plain_month (y, m) -> In d [y / 1000; y / 100 mod 10; y / 10 mod 10; y mod 10; m / 10; m mod 10] -> 0 <= d <= 9.
Proof.
  unfold plain_month. cbn [fst snd]. intros [Hy Hm] H.
  assert (0 <= y / 1000 <= 9) by (split; [apply Z.div_pos; lia|apply Z.lt_succ_r, Z.div_lt_upper_bound; lia]).
  assert (0 <= m / 10 <= 9) by (split; [apply Z.div_pos; lia|apply Z.lt_succ_r, Z.div_lt_upper_bound; lia]).
  pose proof (Z.mod_pos_bound (y / 100) 10 ltac:(lia)). pose proof (Z.mod_pos_bound (y / 10) 10 ltac:(lia)). pose proof (Z.mod_pos_bound y 10 ltac:(lia)). pose proof (Z.mod_pos_bound m 10 ltac:(lia)).
  cbn [In] in H. intuition (subst; lia).
Qed.
Lemma zip_no_slash sym m : ~ In 47 sym -> plain_month m -> ~ In 47 (zip_name sym m).
Proof.
  intros Hs Hm H. unfold zip_name in H. apply in_app_or in H. destruct H as [H|H]; [contradiction|]. apply in_app_or in H. destruct H as [H|H]; [cbn in H; intuition discriminate|].
  apply in_app_or in H. destruct H as [H|H]; [|cbn in H; intuition discriminate]. destruct m as [y m]. pose proof (digit_bounds y m) as B. specialize (fun d => B d Hm).
  unfold ym, fmt_month, digit in H. cbn [fst snd In] in H.
  repeat (destruct H as [H|H]; [try lia; match type of H with 48 + ?d = _ => assert (0 <= d <= 9) by (apply B; cbn [In]; tauto); lia end|]). contradiction.
Qed.
Lemma zip_url_shape p sym m : exists a, zip_url p sym m = a ++ 47 :: zip_name sym m /\
  a = binance_base ++ (if key_eqb p spot_name then txt "/data/spot" else txt "/data/futures/" ++ p) ++ txt "/monthly/trades/" ++ sym.
Proof. eexists. split; [|reflexivity]. unfold zip_url. rewrite <- !app_assoc. reflexivity. Qed.
Lemma basename_zip p sym m : ~ In 47 sym -> plain_month m -> basename (zip_url p sym m) = zip_name sym m.
Proof. intros Hs Hm. destruct (zip_url_shape p sym m) as [a [-> _]]. apply basename_app. now apply zip_no_slash. Qed.
Lemma ym_inj m m' : plain_month m -> plain_month m' -> ym m = ym m' -> m = m'.
Proof.
  destruct m as [y m], m' as [y' m']. unfold ym, fmt_month, digit, plain_month. cbn [fst snd]. intros [Hy Hm] [Hy' Hm'] H.
  assert (E : forall a b : Z, 48 + a = 48 + b -> a = b) by (intros; lia).
  injection H as H1 H2 H3 H4 H5 H6. 
  pose proof (Z.div_mod y 10 ltac:(lia)). pose proof (Z.div_mod y' 10 ltac:(lia)). pose proof (Z.div_mod m 10 ltac:(lia)). pose proof (Z.div_mod m' 10 ltac:(lia)).
  pose proof (Z.div_mod (y / 10) 10 ltac:(lia)). pose proof (Z.div_mod (y' / 10) 10 ltac:(lia)). pose proof (Z.div_mod (y / 100) 10 ltac:(lia)). pose proof (Z.div_mod (y' / 100) 10 ltac:(lia)).
  rewrite !Z.div_div in * by lia. change (10 * 10) with 100 in *. change (100 * 10) with 1000 in *. f_equal; lia.
Qed.
Lemma zip_name_length sym m : length (zip_name sym m) = (length sym + 19)%nat.
Proof. unfold zip_name. rewrite !app_length. reflexivity. Qed.
Lemma zip_name_inj sym m m' : plain_month m -> plain_month m' -> zip_name sym m = zip_name sym m' -> m = m'.
Proof.
  intros H H' E. unfold zip_name in E. apply app_inv_head in E. apply app_inv_head in E. apply app_inv_tail in E. now apply ym_inj.
Qed.
Lemma zip_not_checksum sym m m' : zip_name sym m <> zip_name sym m' ++ dot_checksum.
Proof. intro E. apply (f_equal (@length Z)) in E. rewrite app_length, !zip_name_length in E. cbn in E. lia. Qed.

(* ------------------------------------------------------------------ *)
(** ** One download *)

Lemma same_but_refl l a : same_but l a a.
Proof. intros n _. reflexivity. Qed.
Lemma same_but_trans l a b c : same_but l a b -> same_but l b c -> same_but l a c.
Proof. intros H K n N. rewrite (K n N). now apply H. Qed.
Lemma same_but_put l f b a : In f l -> same_but l a (kput f b a).
Proof. intros I n N. rewrite kget_kput. destruct (key_eqb_spec f n) as [->|_]; [contradiction|reflexivity]. Qed.
Lemma same_but_del l f a : In f l -> same_but l a (kdel f a).
Proof. intros I n N. rewrite kget_kdel. destruct (key_eqb_spec f n) as [->|_]; [contradiction|reflexivity]. Qed.
Lemma same_but_incl l l' a b : incl l l' -> same_but l a b -> same_but l' a b.
Proof. intros I H n N. apply H. intro K. apply N, I, K. Qed.

Lemma left_over_zero r old x : left_over r 0 old x <-> x = old.
Proof. split; [intros [[j [p [H _]]]|[_ H]]; [lia|exact H]|intros ->; right; split; [intros; lia|reflexivity]]. Qed.
Lemma left_over_broken r i p old x : r 0%nat = Broken p -> left_over (fun j => r (S j)) i (Some p) x -> left_over r (S i) old x.
Proof.
  intros E [[j [q [H [H1 [H2 H3]]]]]|[H1 H2]]; left.
  - exists (S j), q. split; [lia|]. split; [exact H1|]. split; [|exact H3]. intros k K. destruct k as [|k]; [lia|]. apply H2. lia.
  - exists 0%nat, p. split; [lia|]. split; [exact E|]. split; [|exact H2]. intros k K. destruct k as [|k]; [lia|]. apply H1. lia.
Qed.
Lemma left_over_refused r i old x : r 0%nat = Refused -> left_over (fun j => r (S j)) i old x -> left_over r (S i) old x.
Proof.
  intros E [[j [q [H [H1 [H2 H3]]]]]|[H1 H2]].
  - left. exists (S j), q. split; [lia|]. split; [exact H1|]. split; [|exact H3]. intros k K. destruct k as [|k]; [lia|]. apply H2. lia.
  - right. split; [|exact H2]. intros k K. destruct k as [|k]; [exact E|]. apply H1. lia.
Qed.

(** How [n] attempts end. *)
Definition dl_spec (net : list key -> key -> response) (n : nat) (u f : key) (w : world) (res : dl * world) : Prop :=
  let r := reply net (w_log w) u in
  same_but [f] (w_files w) (w_files (snd res)) /\
  match fst res with
  | Got => exists i b, (i < n)%nat /\ (forall j, (j < i)%nat -> failing (r j)) /\ r i = Body b /\
             kget f (w_files (snd res)) = Some b /\ w_log (snd res) = w_log w ++ repeat u (S i)
  | Absent => (n = 0%nat /\ snd res = w) \/
              exists i, (i < n)%nat /\ (forall j, (j < i)%nat -> failing (r j)) /\ r i = NotFound /\
                left_over r i (kget f (w_files w)) (kget f (w_files (snd res))) /\ w_log (snd res) = w_log w ++ repeat u (S i)
  | Failed => (0 < n)%nat /\ (forall j, (j < n)%nat -> failing (r j)) /\
              left_over r n (kget f (w_files w)) (kget f (w_files (snd res))) /\ w_log (snd res) = w_log w ++ repeat u n
  end.

Lemma log_app (h : list key) u k : (h ++ [u]) ++ repeat u k = h ++ repeat u (S k).
Proof. rewrite <- app_assoc. reflexivity. Qed.

Lemma dl_step net n u f w w' res : w_log w' = w_log w ++ [u] -> same_but [f] (w_files w) (w_files w') ->
  failing (reply net (w_log w) u 0) -> (0 < n)%nat ->
  (forall i x, left_over (fun j => reply net (w_log w) u (S j)) i (kget f (w_files w')) x -> left_over (reply net (w_log w) u) (S i) (kget f (w_files w)) x) ->
  dl_spec net n u f w' res -> dl_spec net (S n) u f w res.
Proof.
  intros L S0 F0 N LO. unfold dl_spec. cbv zeta. set (r := reply net (w_log w) u) in *. intros [S1 H]. split; [eapply same_but_trans; eauto|].
  assert (RR : forall j, reply net (w_log w') u j = r (S j)) by (intro j; unfold r, reply; rewrite L, log_app; reflexivity).
  assert (FF : forall i, (forall j, (j < i)%nat -> failing (reply net (w_log w') u j)) -> forall j, (j < S i)%nat -> failing (r j)).
  { intros i H0 [|j] Hj; [exact F0|]. rewrite <- RR. apply H0. lia. }
  assert (LL : forall i x, left_over (reply net (w_log w') u) i (kget f (w_files w')) x -> left_over r (S i) (kget f (w_files w)) x).
  { intros i x K. apply LO. destruct K as [[j [q [K1 [K2 [K3 K4]]]]]|[K1 K2]].
    - left. exists j, q. split; [exact K1|]. split; [rewrite <- RR; exact K2|]. split; [|exact K4]. intros k Hk. rewrite <- RR. now apply K3.
    - right. split; [|exact K2]. intros j Hj. rewrite <- RR. now apply K1. }
  destruct (fst res).
  - destruct H as [i [b [H1 [H2 [H3 [H4 H5]]]]]]. exists (S i), b. split; [lia|]. split; [now apply FF|]. split; [rewrite <- RR; exact H3|]. split; [exact H4|]. rewrite H5, L. apply log_app.
  - destruct H as [[H _]|[i [H1 [H2 [H3 [H4 H5]]]]]]; [lia|]. right. exists (S i). split; [lia|]. split; [now apply FF|]. split; [rewrite <- RR; exact H3|]. split; [now apply LL|]. rewrite H5, L. apply log_app.
  - destruct H as [H1 [H2 [H3 H4]]]. split; [lia|]. split; [now apply FF|]. split; [now apply LL|]. rewrite H4, L. apply log_app.
Qed.

Lemma download_spec net n u f : forall w, dl_spec net n u f w (download net n u f w).
Proof.
  induction n as [|n IH]; intro w.
  - split; [apply same_but_refl|]. left. split; reflexivity.
  - cbn [download]. assert (R0 : reply net (w_log w) u 0 = net (w_log w) u) by (unfold reply; cbn [repeat]; now rewrite app_nil_r).
    destruct (net (w_log w) u) as [| |p|b] eqn:E.
    + split; [apply same_but_refl|]. cbn [fst snd]. right. exists 0%nat. split; [lia|]. split; [intros; lia|]. split; [exact R0|]. split; [now apply left_over_zero|reflexivity].
    + destruct n as [|n].
      * cbn [Nat.eqb]. split; [apply same_but_refl|]. cbn [fst snd]. split; [lia|]. split; [intros j Hj; replace j with 0%nat by lia; now left|]. split; [|reflexivity].
        right. split; [intros j Hj; now replace j with 0%nat by lia|reflexivity].
      * change (S n =? 0)%nat with false. apply (dl_step net (S n) u f w (mkW (w_files w) (w_log w ++ [u]))); [reflexivity|apply same_but_refl|now left|lia| |apply IH].
        intros i x K. now apply left_over_refused.
    + destruct n as [|n].
      * cbn [Nat.eqb]. split; [apply same_but_put; now left|]. cbn [fst snd]. split; [lia|]. split; [intros j Hj; replace j with 0%nat by lia; right; now exists p|]. split; [|reflexivity].
        left. exists 0%nat, p. split; [lia|]. split; [exact R0|]. split; [intros; lia|]. cbn [w_files]. now rewrite kget_kput, key_eqb_refl.
      * change (S n =? 0)%nat with false. apply (dl_step net (S n) u f w (mkW (kput f p (w_files w)) (w_log w ++ [u]))); [reflexivity|apply same_but_put; now left|right; now exists p|lia| |apply IH].
        intros i x K. cbn [w_files] in K. rewrite kget_kput, key_eqb_refl in K. now apply (left_over_broken _ _ p).
    + split; [apply same_but_put; now left|]. cbn [fst snd]. exists 0%nat, b. split; [lia|]. split; [intros; lia|]. split; [exact R0|]. split; [|reflexivity]. cbn [w_files]. now rewrite kget_kput, key_eqb_refl.
Qed.
(** The number of requests. *)
Lemma download_log net n u f w : exists k, (k <= n)%nat /\ w_log (snd (download net n u f w)) = w_log w ++ repeat u k.
Proof.
  destruct (download_spec net n u f w) as [_ H]. destruct (fst (download net n u f w)).
  - destruct H as [i [b [H1 [_ [_ [_ H]]]]]]. exists (S i). split; [lia|exact H].
  - destruct H as [[H1 H]|[i [H1 [_ [_ [_ H]]]]]]; [exists 0%nat; split; [lia|]; rewrite H; cbn; now rewrite app_nil_r|exists (S i); split; [lia|exact H]].
  - destruct H as [_ [_ [_ H]]]. exists n. split; [lia|exact H].
Qed.
(** A steady server. *)
Lemma download_steady net data n u f w : steady net data -> (0 < n)%nat ->
  download net n u f w = match data u with Some b => (Got, mkW (kput f b (w_files w)) (w_log w ++ [u])) | None => (Absent, mkW (w_files w) (w_log w ++ [u])) end.
Proof. intros H N. destruct n; [lia|]. cbn [download]. rewrite H. now destruct (data u). Qed.
