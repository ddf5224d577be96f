(** Properties C51-C56 (string search, trie). *)
From Verif Require Import Base StringModel StringSpec StringProofs StringProofs2 StringProofs3 TrieModel TrieSpec TrieProofs.
From Coq Require Import String Ascii.

(** ASCII strings as lists of code points, for the examples *)
Fixpoint codes (s : string) : list Z := match s with EmptyString => [] | String c s => Z.of_nat (nat_of_ascii c) :: codes s end.
Lemma zeqb_decides : decides_eq Z.eqb. Proof. intros x y. apply Z.eqb_eq. Qed.

(** C51 *)
Theorem C51_kmp_exact : forall (A : Type) (eqb : A -> A -> bool) (text query : list A), decides_eq eqb ->
  exists ps, find_kmp eqb text query = Ret ps /\ all_occurrences text query ps.
Proof. intros A eqb text query DE. exact (kmp_ok eqb DE text query). Qed.
Print Assumptions C51_kmp_exact.
Example C51_case : find_kmp Z.eqb (codes "abcaabcaabcab") (codes "abcaabca") = Ret [0; 4] /\ find_kmp Z.eqb (codes "aaaa") (codes "aa") = Ret [0; 1; 2].
Proof. vm_compute. auto. Qed.

(** C52 *)
Theorem C52_boyer_moore_exact : forall (A : Type) (eqb : A -> A -> bool) (text query : list A), decides_eq eqb ->
  exists ps, find_bm eqb text query = Ret ps /\ all_occurrences text query ps.
Proof.
  intros A eqb t q DE. apply wp_ex. pose proof (len_nonneg _ t). pose proof (len_nonneg _ q).
  destruct (Z.eq_dec (len t) 0) as [E|E]; [unfold find_bm; rewrite E; cbn; apply empty_answer; auto|].
  destruct (Z.eq_dec (len q) 0) as [E'|E']; [unfold find_bm; rewrite E', orb_true_r; cbn; apply empty_answer; auto|].
  destruct q as [|d q']; [cbn in E'; lia|]. apply (bm_core eqb DE d); lia.
Qed.
Print Assumptions C52_boyer_moore_exact.
Example C52_case : find_bm Z.eqb (codes "abcaabcaabcab") (codes "abcaabca") = Ret [0; 4] /\ find_bm Z.eqb (codes "aaaa") (codes "aa") = Ret [0; 1; 2].
Proof. vm_compute. auto. Qed.

Lemma poly_hash_eq s : poly_hash s = poly s.
Proof. induction s as [|c s IH]; [reflexivity|]. cbn [poly_hash poly]. rewrite IH. reflexivity. Qed.
(** C53. Rabin-Karp never misses an occurrence, and reports exactly the windows whose polynomial hash agrees with the query's. *)
Theorem C53_rabin_karp_complete_partial : forall text query : list Z,
  exists ps, find_rk text query = Ret ps /\ StronglySorted Z.lt ps /\
    (forall i, text <> [] -> query <> [] -> occurs_at text query i -> In i ps) /\
    (forall i, In i ps -> exists w, len w = len query /\ occurs_at text w i /\ poly_hash w mod 1000000007 = poly_hash query mod 1000000007).
Proof.
  intros t q. pose proof (len_nonneg _ t). pose proof (len_nonneg _ q).
  destruct (Z.eq_dec (len t) 0) as [E|E]; [exists []; unfold find_rk; rewrite E, orb_true_r; repeat split; [constructor|intros i Ht; apply len0 in E; contradiction|intros i []]|].
  destruct (Z.eq_dec (len q) 0) as [E'|E']; [exists []; unfold find_rk; rewrite E'; repeat split; [constructor|intros i _ Hq; apply len0 in E'; contradiction|intros i []]|].
  assert (W := rk_core t q ltac:(lia) ltac:(lia)). apply wp_ex in W. destruct W as (ps & Eps & SS & HI). exists ps. split; [exact Eps|]. split; [exact SS|]. split.
  - intros i _ _ O. assert (0 <= i /\ i + len q <= len t) as [I1 I2]. { destruct O as (pre & post & -> & <-). rewrite !len_app'. pose proof (len_nonneg _ pre). pose proof (len_nonneg _ post). lia. }
    apply HI. split; [exact I1|]. split; [exact I2|]. apply occ_window in O; [|exact I1|exact I2]. rewrite O. reflexivity.
  - intros i Hi. apply HI in Hi. destruct Hi as (I1 & I2 & I3). exists (window t i (len q)).
    assert (L : len (window t i (len q)) = len q) by (unfold window, len in *; rewrite firstn_length, skipn_length; lia).
    split; [exact L|]. split; [|rewrite !poly_hash_eq; exact I3]. apply occ_window; [exact I1|rewrite L; exact I2|rewrite L; reflexivity].
Qed.
Print Assumptions C53_rabin_karp_complete_partial.
(** and it is exact for queries of up to three characters with code points below 257 *)
Theorem C53_rabin_karp_short_partial : forall text query : list Z, len query <= 3 ->
  Forall (fun c => 0 <= c < 257) text -> Forall (fun c => 0 <= c < 257) query ->
  exists ps, find_rk text query = Ret ps /\ all_occurrences text query ps.
Proof.
  intros t q Hq Ft Fq. destruct (C53_rabin_karp_complete_partial t q) as (ps & E & SS & H1 & H2). exists ps. split; [exact E|]. split; [exact SS|]. intros i. split; [|intros (G1 & G2 & G3); apply H1; assumption].
  intros Hi. destruct (H2 i Hi) as (w & L & O & HM). rewrite (poly_hash_eq w), (poly_hash_eq q) in HM. pose proof (len_nonneg _ q).
  assert (Fw : Forall (fun c => 0 <= c < 257) w). { destruct O as (pre & post & -> & _). apply Forall_app in Ft. destruct Ft as [_ Ft]. apply Forall_app in Ft. tauto. }
  assert (w = q) as ->.
  { apply poly_inj; [unfold len in L; lia|exact Fw|exact Fq|]. pose proof (poly_bound w Fw) as B1. pose proof (poly_bound q Fq) as B2. rewrite L in B1.
    assert (PRIME_NUMBER ^ len q <= PRIME_NUMBER ^ 3) as B3 by (apply Z.pow_le_mono_r; [reflexivity|exact Hq]). change (PRIME_NUMBER ^ 3) with 16974593 in B3.
    rewrite !Z.mod_small in HM by lia. exact HM. }
  split; [intros ->; destruct O as (pre & post & EE & _)|split; [intros ->|exact O]].
  - symmetry in EE. apply app_eq_nil in EE. destruct EE as [_ EE]. apply app_eq_nil in EE. destruct EE as [-> _]. unfold find_rk in E. cbn in E. inversion E; subst. destruct Hi.
  - unfold find_rk in E. cbn in E. inversion E; subst. destruct Hi.
Qed.
Print Assumptions C53_rabin_karp_short_partial.
Example C53_case : find_rk (codes "abcaabcaabcab") (codes "abc") = Ret [0; 4; 8] /\ find_rk (codes "aaaa") (codes "aa") = Ret [0; 1; 2].
Proof. vm_compute. auto. Qed.
(** but longer queries of lower-case letters collide: find("elkred", "aibhlu", "rabin_karp") gives [0] *)
Theorem C53_rabin_karp_collision_refuted : find_rk (codes "elkred") (codes "aibhlu") = Ret [0] /\ ~ occurs_at (codes "elkred") (codes "aibhlu") 0.
Proof.
  split; [vm_compute; reflexivity|]. intros (pre & post & E & L). destruct pre; [|unfold len in L; cbn [List.length] in L; lia]. vm_compute in E. discriminate.
Qed.
Print Assumptions C53_rabin_karp_collision_refuted.

(** C54. What z_function reports: the occurrences not directly followed by '$'. *)
Theorem C54_z_function_reports_partial : forall (A : Type) (eqb : A -> A -> bool) (dollar : A) (text query : list A), decides_eq eqb ->
  exists ps, find_z eqb dollar text query = Ret ps /\ StronglySorted Z.lt ps /\
    forall i, In i ps <-> text <> [] /\ query <> [] /\ occurs_at text query i /\ ~ occurs_at text (query ++ [dollar]) i.
Proof.
  intros A eqb dollar t q DE. pose proof (len_nonneg _ t). pose proof (len_nonneg _ q).
  destruct (Z.eq_dec (len t) 0) as [E|E]; [exists []; unfold find_z; rewrite E; split; [reflexivity|]; split; [constructor|]; intros i; split; [intros []|]; intros (Ht & _); apply len0 in E; contradiction|].
  destruct (Z.eq_dec (len q) 0) as [E'|E']; [exists []; unfold find_z; rewrite E', orb_true_r; split; [reflexivity|]; split; [constructor|]; intros i; split; [intros []|]; intros (_ & Hq & _); apply len0 in E'; contradiction|].
  assert (W := z_core eqb DE dollar dollar t q ltac:(lia) ltac:(lia)). apply wp_ex in W. destruct W as (ps & Eps & SS & HI). exists ps. split; [exact Eps|]. split; [exact SS|]. intros i. rewrite HI, <- !(occ_occurs dollar). split.
  - intros [O ND]. split; [intros ->; cbn in E; lia|]. split; [intros ->; cbn in E'; lia|]. split; [exact O|]. intros (O1 & O2 & O3). rewrite len_app' in O2, O3. change (len [dollar]) with 1 in O2, O3.
    apply ND; [lia|]. rewrite (O3 (len q)) by lia. rewrite zn_app2 by lia. rewrite Z.sub_diag. reflexivity.
  - intros (_ & _ & O & NO). split; [exact O|]. intros Hlt EE. apply NO. destruct O as (O1 & O2 & O3). unfold occ. rewrite len_app'. change (len [dollar]) with 1. split; [exact O1|]. split; [lia|]. intros x Hx.
    destruct (Z.eq_dec x (len q)) as [->|]; [rewrite EE, zn_app2 by lia; rewrite Z.sub_diag; reflexivity|]. rewrite zn_app1 by lia. apply O3. lia.
Qed.
Print Assumptions C54_z_function_reports_partial.
(** so it is exact on texts without '$' *)
Theorem C54_z_function_exact_partial : forall (A : Type) (eqb : A -> A -> bool) (dollar : A) (text query : list A), decides_eq eqb -> ~ In dollar text ->
  exists ps, find_z eqb dollar text query = Ret ps /\ all_occurrences text query ps.
Proof.
  intros A eqb dollar t q DE ND. destruct (C54_z_function_reports_partial A eqb dollar t q DE) as (ps & E & SS & H). exists ps. split; [exact E|]. split; [exact SS|]. intros i. rewrite H. split; [tauto|].
  intros (G1 & G2 & G3). repeat split; try assumption. intros (pre & post & EE & _). apply ND. rewrite EE. apply in_or_app. right. apply in_or_app. left. apply in_or_app. right. left. reflexivity.
Qed.
Print Assumptions C54_z_function_exact_partial.
Example C54_case : find_z Z.eqb 36 (codes "abcaabcaabcab") (codes "abcaabca") = Ret [0; 4] /\ find_z Z.eqb 36 (codes "aaaa") (codes "aa") = Ret [0; 1; 2].
Proof. vm_compute. auto. Qed.
Theorem C54_z_function_dollar_refuted : find_z Z.eqb 36 (codes "cost$5") (codes "cost") = Ret [] /\ occurs_at (codes "cost$5") (codes "cost") 0.
Proof. split; [vm_compute; reflexivity|]. exists [], (codes "$5"). split; reflexivity. Qed.
Print Assumptions C54_z_function_dollar_refuted.

(** C55 *)
Theorem C55_trie_set : forall (A : Type) (eqb : A -> A -> bool) (ops : list (trie_op A)), decides_eq eqb ->
  let t := trie_run eqb ops trie_new in
  (forall s, is_inserted eqb t s = true <-> stored ops s) /\
  (forall s, is_present eqb t s = true <-> s = [] \/ exists x, stored ops (s ++ x)) /\
  (forall s, snd (trie_delete eqb t s) = if is_present eqb t s then Some true else None).
Proof.
  intros A eqb ops DE t. destruct (run_ok eqb DE ops) as [W I]. split; [exact I|]. split.
  - intros s. rewrite (present_spec eqb DE s t W). split; (intros [H|[x H]]; [auto|right; exists x; apply I; exact H]).
  - intros s. unfold trie_delete. pose proof (delete_spec eqb DE s t) as D. destruct (delete_rec eqb t s) as [[t' r]|]; [destruct D as (-> & _); reflexivity|rewrite D; reflexivity].
Qed.
Print Assumptions C55_trie_set.
Example C55_case : let t := trie_run Z.eqb [TInsert (codes "a"); TInsert (codes "aab"); TDelete (codes "aab"); TInsert (codes "abc"); TDelete (codes "ab")] trie_new in
  (is_inserted Z.eqb t (codes "a"), is_inserted Z.eqb t (codes "ab"), is_present Z.eqb t (codes "ab"), is_present Z.eqb t (codes "aa")) = (true, false, true, false).
Proof. vm_compute. reflexivity. Qed.

(** C56. The list is exact when the prefix is not itself stored, or is one character long. *)
Theorem C56_strings_with_prefix_partial : forall (A : Type) (eqb : A -> A -> bool) (ops : list (trie_op A)) (p : list A), decides_eq eqb ->
  ~ stored ops p \/ len p = 1 ->
  exists l, strings_with_prefix eqb (trie_run eqb ops trie_new) p = Ret (map Some l) /\ NoDup l /\ forall s, In s l <-> stored ops s /\ exists x, s = p ++ x.
Proof.
  intros A eqb ops p DE Hp. destruct (run_ok eqb DE ops) as [W I]. destruct (swp_ok eqb DE _ p W) as (l & E & N & H). unfold trun in *. rewrite E.
  destruct (is_inserted eqb (trie_run eqb ops trie_new) p) eqn:EI.
  - apply I in EI. destruct Hp as [Hp|Hp]; [contradiction|]. destruct p as [|c [|c' p]]; [cbn in Hp; lia| |unfold len in Hp; cbn [List.length] in Hp; lia].
    exists ([c] :: l). split; [reflexivity|]. split; [constructor; [intros Hc; apply H in Hc; tauto|exact N]|]. intros s. cbn [In]. rewrite H, I. split.
    + intros [<- | (G1 & G2 & G3)]; [split; [exact EI|exists []; reflexivity]|auto].
    + intros [G1 G2]. destruct (ldec eqb DE [c] s) as [->|NE]; [auto|]. right. repeat split; auto.
  - exists l. split; [reflexivity|]. split; [exact N|]. intros s. rewrite H, I. split; [tauto|]. intros [G1 G2]. repeat split; auto. intros ->. apply I in G1. unfold ins in G1. congruence.
Qed.
Print Assumptions C56_strings_with_prefix_partial.
Example C56_case : strings_with_prefix Z.eqb (trie_run Z.eqb [TInsert (codes "there"); TInsert (codes "the"); TInsert (codes "to"); TInsert (codes "thaw"); TDelete (codes "to")] trie_new) (codes "th")
   = Ret [Some (codes "the"); Some (codes "there"); Some (codes "thaw")].
Proof. vm_compute. reflexivity. Qed.
(** for any stored prefix the proper extensions are right, but the prefix is reported as its last character (None for the empty string) *)
Theorem C56_strings_with_prefix_extensions_partial : forall (A : Type) (eqb : A -> A -> bool) (ops : list (trie_op A)) (p : list A), decides_eq eqb -> stored ops p ->
  exists l, strings_with_prefix eqb (trie_run eqb ops trie_new) p = Ret (option_map (fun c => [c]) (last (map Some p) None) :: map Some l) /\
    NoDup l /\ forall s, In s l <-> stored ops s /\ s <> p /\ exists x, s = p ++ x.
Proof.
  intros A eqb ops p DE Hp. destruct (run_ok eqb DE ops) as [W I]. destruct (swp_ok eqb DE _ p W) as (l & E & N & H). unfold trun in *. rewrite E. apply I in Hp. unfold ins in Hp. rewrite Hp. exists l. split.
  - cbn [app]. do 2 f_equal. destruct p as [|c p] using rev_ind; [reflexivity|]. rewrite rev_app_distr, map_app. cbn. rewrite last_last. reflexivity.
  - split; [exact N|]. intros s. rewrite H, I. reflexivity.
Qed.
Print Assumptions C56_strings_with_prefix_extensions_partial.
Theorem C56_stored_prefix_refuted :
  strings_with_prefix Z.eqb (trie_run Z.eqb [TInsert (codes "th"); TInsert (codes "the")] trie_new) (codes "th") = Ret [Some (codes "h"); Some (codes "the")].
Proof. vm_compute. reflexivity. Qed.
Print Assumptions C56_stored_prefix_refuted.
