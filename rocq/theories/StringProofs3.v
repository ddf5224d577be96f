(** Rabin-Karp. *)
From Verif Require Import Base StringModel StringSpec StringProofs.
From Coq Require Import Znumtheory.

Notation P := PRIME_NUMBER.
(** the exact polynomial hash, without reduction *)
Fixpoint poly (s : list Z) : Z := match s with [] => 0 | c :: s => c + P * poly s end.
Lemma poly_app a b : poly (a ++ b) = poly a + P ^ len a * poly b.
Proof.
  induction a as [|c a IH]; cbn [app poly]; [change (len (@nil Z)) with 0; rewrite Z.pow_0_r; lia|].
  rewrite IH. replace (len (c :: a)) with (Z.succ (len a)) by (unfold len; cbn [length]; lia). rewrite Z.pow_succ_r by apply len_nonneg. ring.
Qed.
Lemma MOD_pos : 0 < MOD. Proof. reflexivity. Qed.

Lemma p_pow_ok n : 0 < n -> wp (p_pow n P MOD) (fun a => len a = n /\ forall i, 0 <= i < n -> zn None a i = Some (P ^ i mod MOD)).
Proof.
  intros Hn. unfold p_pow. assert (L : len (repeat (@None Z) (Z.to_nat n)) = n) by (rewrite len_repeat'; lia). rewrite aset_ok by lia. cbn [bind].
  apply wp_for_range with (I := fun b a => len a = n /\ forall i, 0 <= i < b -> zn None a i = Some (P ^ i mod MOD)).
  - rewrite len_zupd. split; [exact L|]. intros i Hi. replace i with 0 by lia. rewrite zn_zupd_eq by lia. reflexivity.
  - intros i a Hi (H1 & H2). rewrite (iget_ok _ _ (P ^ (i - 1) mod MOD)) by (try apply H2; lia). cbn [bind]. rewrite aset_ok by lia. cbn [wp].
    rewrite len_zupd. split; [exact H1|]. intros j Hj. destruct (Z.eq_dec j i) as [->|]; [|rewrite zn_zupd_ne by lia; apply H2; lia].
    rewrite zn_zupd_eq by lia. f_equal. rewrite Z.mul_mod_idemp_l by discriminate. f_equal. replace i with (Z.succ (i - 1)) at 2 by lia. rewrite Z.pow_succ_r by lia. ring.
  - intros a (H1 & H2). replace (Z.max 1 n) with n in H2 by lia. auto.
Qed.
Lemma firstn_snoc (s : list Z) i : 0 <= i < len s -> firstn (Z.to_nat (i + 1)) s = firstn (Z.to_nat i) s ++ [zn 0 s i].
Proof.
  intros H. unfold zn. replace (Z.to_nat (i + 1)) with (S (Z.to_nat i)) by lia. assert (Hn : (Z.to_nat i < length s)%nat) by (unfold len in H; lia).
  revert Hn. generalize (Z.to_nat i) as n. clear. induction s as [|c s IH]; intros [|n] H; cbn [length] in H; try lia; [reflexivity|].
  cbn [firstn app nth]. f_equal. apply IH. lia.
Qed.
Lemma len_firstn (s : list Z) i : 0 <= i <= len s -> len (firstn (Z.to_nat i) s) = i.
Proof. intros H. unfold len in *. rewrite firstn_length. lia. Qed.
Lemma poly_snoc s i : 0 <= i < len s -> poly (firstn (Z.to_nat (i + 1)) s) = poly (firstn (Z.to_nat i) s) + zn 0 s i * P ^ i.
Proof. intros H. rewrite firstn_snoc by exact H. rewrite poly_app, len_firstn by lia. cbn [poly]. ring. Qed.
Lemma step_mod h c v p : h = c mod MOD -> (h + v * (p mod MOD)) mod MOD = (c + v * p) mod MOD.
Proof. intros ->. rewrite Z.add_mod_idemp_l by discriminate. rewrite <- Z.add_mod_idemp_r by discriminate. rewrite Z.mul_mod_idemp_r by discriminate. rewrite Z.add_mod_idemp_r by discriminate. reflexivity. Qed.
Lemma hash_ok s : 0 < len s -> hash_str s P MOD = Ret (poly s mod MOD).
Proof.
  intros Hs. assert (W : wp (hash_str s P MOD) (fun h => h = poly s mod MOD)); [|apply wp_ex in W; destruct W as (h & E & ->); exact E].
  unfold hash_str. apply wp_bind. eapply wp_mono; [apply p_pow_ok, Hs|]. intros pw (L & HP).
  apply wp_for_range with (I := fun i h => h = poly (firstn (Z.to_nat i) s) mod MOD).
  - reflexivity.
  - intros i h Hi HI. rewrite (lget_ok _ 0) by lia. cbn [bind]. rewrite (iget_ok _ _ (P ^ i mod MOD)) by (try apply HP; lia). cbn [bind wp].
    rewrite poly_snoc by lia. apply step_mod, HI.
  - intros h ->. replace (Z.max 0 (len s)) with (len s) by lia. rewrite firstn_all2 by (unfold len; lia). reflexivity.
Qed.

Definition window (t : list Z) (i n : Z) : list Z := firstn (Z.to_nat n) (skipn (Z.to_nat i) t).
Lemma poly_window t i n : 0 <= i -> 0 <= n -> i + n <= len t -> poly (firstn (Z.to_nat (i + n)) t) = poly (firstn (Z.to_nat i) t) + P ^ i * poly (window t i n).
Proof.
  intros H1 H2 H3. rewrite <- (len_firstn t i) at 3 by lia. rewrite <- poly_app. f_equal. unfold window. replace (Z.to_nat (i + n)) with (Z.to_nat i + Z.to_nat n)%nat by lia.
  generalize (Z.to_nat i) as a, (Z.to_nat n) as b. clear. induction t as [|c t IH]; intros [|a] b; cbn [plus firstn skipn app]; try reflexivity; [rewrite firstn_nil; reflexivity|f_equal; apply IH].
Qed.
Lemma coprime_pow i : 0 <= i -> rel_prime MOD (P ^ i).
Proof.
  intros Hi. apply rel_prime_sym. pattern i. apply natlike_ind; [|intros x Hx IH|exact Hi].
  - rewrite Z.pow_0_r. apply rel_prime_1.
  - rewrite Z.pow_succ_r by exact Hx. apply rel_prime_sym. apply rel_prime_mult; [|apply rel_prime_sym, IH]. apply Zgcd_1_rel_prime. vm_compute. reflexivity.
Qed.
Lemma mod_eq_div a b : a mod MOD = b mod MOD <-> (MOD | a - b).
Proof.
  split.
  - intros E. exists (a / MOD - b / MOD). pose proof (Z.div_mod a MOD ltac:(discriminate)). pose proof (Z.div_mod b MOD ltac:(discriminate)). lia.
  - intros [k E]. replace a with (b + k * MOD) by lia. apply Z.mod_add. discriminate.
Qed.
Lemma cancel i a b : 0 <= i -> ((P ^ i * a) mod MOD = (P ^ i * b) mod MOD <-> a mod MOD = b mod MOD).
Proof.
  intros Hi. rewrite !mod_eq_div. rewrite <- Z.mul_sub_distr_l. split; intros H.
  - apply (Gauss _ _ _ H). apply coprime_pow, Hi.
  - apply Z.divide_mul_r, H.
Qed.

(** what _rabin_karp reports: the windows whose polynomial hash equals the query's modulo MOD *)
Lemma rk_core t q : 0 < len t -> 0 < len q -> wp (find_rk t q) (fun ps => StronglySorted Z.lt ps /\
  forall i, In i ps <-> 0 <= i /\ i + len q <= len t /\ poly (window t i (len q)) mod MOD = poly q mod MOD).
Proof.
  intros Ht Hq. unfold find_rk. destruct (Z.eqb_spec (len q) 0); [lia|]. destruct (Z.eqb_spec (len t) 0); [lia|]. cbn [orb].
  rewrite hash_ok by exact Hq. cbn [bind]. apply wp_bind. eapply wp_mono; [apply p_pow_ok, Ht|]. intros pw (L & HP). apply wp_bind.
  apply wp_for_range with (I := fun b th => len th = len t + 1 /\ (forall i, 0 <= i <= b -> zn None th i = Some (poly (firstn (Z.to_nat i) t) mod MOD))).
  - split; [rewrite len_repeat'; lia|]. intros i Hi. replace i with 0 by lia. unfold zn. replace (Z.to_nat (len t + 1)) with (S (length t)) by (unfold len; lia). reflexivity.
  - intros i th Hi (H1 & H2). rewrite (iget_ok _ _ (poly (firstn (Z.to_nat i) t) mod MOD)) by (try apply H2; lia). cbn [bind]. rewrite (lget_ok _ 0) by lia. cbn [bind].
    rewrite (iget_ok _ _ (P ^ i mod MOD)) by (try apply HP; lia). cbn [bind]. rewrite aset_ok by lia. cbn [wp]. rewrite len_zupd. split; [exact H1|].
    intros j Hj. destruct (Z.eq_dec j (i + 1)) as [->|]; [|rewrite zn_zupd_ne by lia; apply H2; lia]. rewrite zn_zupd_eq by lia. f_equal. rewrite poly_snoc by lia. apply step_mod. reflexivity.
  - intros th (H1 & H2). replace (Z.max 0 (len t)) with (len t) in H2 by lia.
    apply wp_for_range with (I := fun b ps => StronglySorted Z.lt ps /\ forall i, In i ps <-> 0 <= i < b /\ i + len q <= len t /\ poly (window t i (len q)) mod MOD = poly q mod MOD).
    + split; [constructor|]. intros i. split; [intros []|lia].
    + intros i ps Hi (P1 & P2). rewrite (iget_ok _ _ (poly (firstn (Z.to_nat (i + len q)) t) mod MOD)) by (try apply H2; lia). cbn [bind].
      rewrite (iget_ok _ _ (poly (firstn (Z.to_nat i) t) mod MOD)) by (try apply H2; lia). cbn [bind]. rewrite (iget_ok _ _ (P ^ i mod MOD)) by (try apply HP; lia). cbn [bind wp].
      assert (EQ : (poly (firstn (Z.to_nat (i + len q)) t) mod MOD + MOD - poly (firstn (Z.to_nat i) t) mod MOD) mod MOD = (poly q mod MOD * (P ^ i mod MOD)) mod MOD
               <-> poly (window t i (len q)) mod MOD = poly q mod MOD).
      { rewrite <- (cancel i (poly (window t i (len q))) (poly q)) by lia. rewrite <- Z.mul_mod by discriminate. rewrite (Z.mul_comm (poly q)). rewrite poly_window by lia.
        assert (EE : (((poly (firstn (Z.to_nat i) t) + P ^ i * poly (window t i (len q))) mod MOD + MOD - poly (firstn (Z.to_nat i) t) mod MOD) mod MOD) = (P ^ i * poly (window t i (len q))) mod MOD); [|rewrite EE; reflexivity].
        generalize (poly (firstn (Z.to_nat i) t)) as a, (P ^ i * poly (window t i (len q))) as b. clear. intros a b. apply mod_eq_div.
        pose proof (Z.div_mod a MOD ltac:(discriminate)). pose proof (Z.div_mod (a + b) MOD ltac:(discriminate)). exists (1 + a / MOD - (a + b) / MOD). lia. }
      destruct (Z.eqb_spec ((poly (firstn (Z.to_nat (i + len q)) t) mod MOD + MOD - poly (firstn (Z.to_nat i) t) mod MOD) mod MOD) ((poly q mod MOD * (P ^ i mod MOD)) mod MOD)) as [E|E].
      * split; [apply SS_snoc; [exact P1|intros j Hj; apply P2 in Hj; lia]|]. intros j. rewrite in_app_iff, P2. cbn [In]. apply EQ in E. split.
        -- intros [H|[<- | []]]; [intuition lia|]. split; [lia|]. split; [lia|exact E].
        -- intros (G1 & G2). destruct (Z.eq_dec j i); [right; left; lia|]. left. split; [lia|exact G2].
      * split; [exact P1|]. intros j. rewrite P2. split; [intuition lia|]. intros (G1 & G2 & G3). destruct (Z.eq_dec j i) as [->|]; [tauto|]. split; [lia|split; assumption].
    + intros ps (P1 & P2). split; [exact P1|]. intros i. rewrite P2. intuition lia.
Qed.
Lemma occ_window t q i : 0 <= i -> i + len q <= len t -> (occurs_at t q i <-> window t i (len q) = q).
Proof.
  intros H1 H2. split.
  - intros (pre & post & -> & <-). unfold window. rewrite skipn_app. replace (Z.to_nat (len pre)) with (length pre) by (unfold len; lia). rewrite skipn_all, Nat.sub_diag. cbn [skipn app].
    rewrite firstn_app. replace (Z.to_nat (len q)) with (length q) by (unfold len; lia). rewrite firstn_all, Nat.sub_diag. cbn [firstn]. apply app_nil_r.
  - intros E. exists (firstn (Z.to_nat i) t), (skipn (Z.to_nat (len q)) (skipn (Z.to_nat i) t)). split; [|pose proof (len_nonneg _ q); apply len_firstn; lia].
    rewrite <- E at 1. unfold window. rewrite firstn_skipn, firstn_skipn. reflexivity.
Qed.
Lemma poly_inj a : forall b, length a = length b -> Forall (fun c => 0 <= c < P) a -> Forall (fun c => 0 <= c < P) b -> poly a = poly b -> a = b.
Proof.
  induction a as [|x a IH]; intros [|y b] L Fa Fb E; try discriminate; [reflexivity|]. inversion Fa; inversion Fb; subst. cbn [poly] in E. unfold P in *.
  assert (poly a = poly b) by lia. f_equal; [lia|]. apply IH; auto.
Qed.
Lemma poly_bound a : Forall (fun c => 0 <= c < P) a -> 0 <= poly a < P ^ len a.
Proof.
  induction a as [|x a IH]; intros F; [cbn; lia|]. inversion F; subst. cbn [poly]. replace (len (x :: a)) with (Z.succ (len a)) by (unfold len; cbn [length]; lia).
  rewrite Z.pow_succ_r by apply len_nonneg. specialize (IH H2). unfold P in *. lia.
Qed.
