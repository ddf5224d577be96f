(** find_bridges on names (C85). *)
From Coq Require Import Strings.String Strings.Ascii Sorting.Sorted.
From Verif Require Import Base DsfModel GraphModel GraphSpec GraphDict PathModel SccModel SccSpec TarjanProofs BridgeProofs.
Import List.

Fixpoint enum (k : Z) (vs : list string) : list (string * Z) := match vs with [] => [] | v :: vs => (v, k) :: enum (k + 1) vs end.
Lemma enum_keys k vs : map fst (enum k vs) = vs.
Proof. revert k. induction vs as [|v vs IH]; intros k; cbn; [reflexivity|]. rewrite IH. reflexivity. Qed.
Lemma mapping_enum vs : NoDup vs -> br_mapping vs = enum 0 vs.
Proof.
  intros N. unfold br_mapping.
  assert (A : forall vs d k, NoDup (map fst d ++ vs) -> fst (fold_left (fun '(d, i) v => (sdset d v i, i + 1)) vs (d, k)) = d ++ enum k vs).
  { clear vs N. induction vs as [|v vs IH]; intros d k N; cbn [fold_left enum fst]; [rewrite app_nil_r; reflexivity|].
    assert (X := NoDup_remove_2 _ _ _ N). rewrite in_app_iff in X. rewrite sset_new by tauto. rewrite IH.
    - rewrite <- app_assoc. reflexivity.
    - rewrite map_app, <- app_assoc. exact N. }
  rewrite A; [reflexivity|exact N].
Qed.
Lemma len_cons {X} (a : X) l : len (a :: l) = len l + 1.
Proof. unfold len. cbn [length]. lia. Qed.
Lemma zn_cons {X} (d a : X) l i : 0 < i -> zn d (a :: l) i = zn d l (i - 1).
Proof. intros H. unfold zn. replace (Z.to_nat i) with (S (Z.to_nat (i - 1))) by lia. reflexivity. Qed.
Lemma enum_get vs : forall k i, NoDup vs -> 0 <= i < len vs -> sdget (enum k vs) (zn EmptyString vs i) = Some (k + i).
Proof.
  induction vs as [|v vs IH]; intros k i N H; [unfold len in H; cbn in H; lia|]. rewrite len_cons in H. inversion N; subst. cbn [enum dget].
  destruct (Z.eq_dec i 0) as [->|Hi]; [cbn; rewrite String.eqb_refl; f_equal; lia|]. rewrite zn_cons by lia.
  destruct (SE (zn EmptyString vs (i - 1)) v) as [E|]; [exfalso; apply H2; rewrite <- E; apply nth_In; unfold len in H; lia|]. rewrite IH by (auto; lia). f_equal. lia.
Qed.
Lemma enum_inv vs : forall k i, 0 <= i < len vs -> br_inv (enum k vs) (k + i) = Ret (zn EmptyString vs i).
Proof.
  unfold br_inv. induction vs as [|v vs IH]; intros k i H; [unfold len in H; cbn in H; lia|]. rewrite len_cons in H. cbn [enum find snd].
  destruct (Z.eqb_spec k (k + i)) as [E|E]; [replace i with 0 by lia; reflexivity|]. rewrite zn_cons by lia. replace (k + i) with (k + 1 + (i - 1)) by lia. apply IH. lia.
Qed.

Lemma pair_leb_spec p q : if pair_leb p q then pair_le p q else pair_le q p.
Proof.
  unfold pair_leb, pair_le. destruct (SE (fst p) (fst q)) as [E|E].
  - destruct (String.leb (snd p) (snd q)) eqn:L; [left; auto|]. left. split; [auto|]. destruct (String.leb_total (snd p) (snd q)); [congruence|assumption].
  - destruct (String.leb (fst p) (fst q)) eqn:L; [right; auto|]. right. split; [auto|]. destruct (String.leb_total (fst p) (fst q)); [congruence|assumption].
Qed.
Lemma insert_perm p l : Permutation (pair_insert p l) (p :: l).
Proof. induction l as [|q l IH]; cbn; [reflexivity|]. destruct (pair_leb p q); [reflexivity|]. rewrite IH. apply perm_swap. Qed.
Lemma insert_sorted p l : Sorted pair_le l -> Sorted pair_le (pair_insert p l).
Proof.
  intros H. induction H as [|q l H IH HR]; cbn; [repeat constructor|]. assert (X := pair_leb_spec p q). destruct (pair_leb p q).
  - constructor; [constructor; assumption|constructor; exact X].
  - constructor; [exact IH|]. destruct HR as [|r l HR]; cbn; [constructor; exact X|]. destruct (pair_leb p r); constructor; assumption.
Qed.
Lemma sort_perm l : Permutation (fold_right pair_insert [] l) l.
Proof. induction l as [|p l IH]; cbn; [reflexivity|]. rewrite insert_perm, IH. reflexivity. Qed.
Lemma sort_sorted l : Sorted pair_le (fold_right pair_insert [] l).
Proof. induction l as [|p l IH]; cbn; [constructor|]. apply insert_sorted. exact IH. Qed.

Section F.
  Context (g : gview) (G : dg) (HG : represents g G) (HU : undirected G).
  Notation V := (fst G).
  Definition nb (v : string) : list string := match gv_neighbors g v with Ret l => l | _ => [] end.
  Definition pos (v : string) : Z := ix (enum 0 V) v.
  Definition name (i : Z) : string := zn EmptyString V i.
  Lemma V_nodup : NoDup V. Proof. apply HG. Qed.
  Lemma nb_ok v : In v V -> gv_neighbors g v = Ret (nb v) /\ forall w, In w (nb v) <-> is_edge G v w.
  Proof. destruct HG as (_ & _ & _ & _ & _ & H). intros Hv. destruct (H v Hv) as (l & E & _ & K). unfold nb. rewrite E. auto. Qed.
  Lemma edge_in u v : is_edge G u v -> In u V /\ In v V.
  Proof. destruct HG as (_ & _ & _ & _ & H & _). apply H. Qed.
  Lemma pos_name i : 0 <= i < len V -> pos (name i) = i.
  Proof. intros H. unfold pos, ix, name. rewrite enum_get by (auto using V_nodup). lia. Qed.
  Lemma name_in i : 0 <= i < len V -> In (name i) V.
  Proof. intros H. apply nth_In. unfold len in H. lia. Qed.
  Lemma in_name v : In v V -> exists i, 0 <= i < len V /\ name i = v.
  Proof. intros H. apply (In_nth _ _ EmptyString) in H as (k & Hk & E). exists (Z.of_nat k). unfold name, zn, len. rewrite Nat2Z.id. split; [lia|exact E]. Qed.
  Lemma pos_rng v : In v V -> 0 <= pos v < len V /\ name (pos v) = v.
  Proof. intros H. destruct (in_name v H) as (i & A & <-). rewrite pos_name by exact A. auto. Qed.
  Lemma pos_inj u v : In u V -> In v V -> pos u = pos v -> u = v.
  Proof. intros A B C. apply pos_rng in A as [_ A]. apply pos_rng in B as [_ B]. congruence. Qed.
  Lemma dget_pos v : In v V -> dgetE (enum 0 V) v = Ret (pos v).
  Proof. intros H. apply dgetE_ix. unfold has. rewrite enum_keys. exact H. Qed.

  (** the two tables of neighbours *)
  Lemma adj_ok : wp (forM V (fun v d => l <- gv_neighbors g v ;; a <- dgetE d v ;; Ret (sdset d v (a ++ l))) (fold_left (fun d v => sdset d v []) V []))
    (fun d => forall v, In v V -> sdget d v = Some (nb v)).
  Proof.
    eapply wp_mono; [apply (wp_forM _ _ _ _ (fun pre d => forall v, In v V -> sdget d v = Some (if mem v pre then nb v else [])))|].
    - intros pre v post0 d E H. assert (Hv : In v V) by (rewrite E; apply in_or_app; right; left; reflexivity). destruct (nb_ok v Hv) as [En _]. rewrite En. cbn [bind]. unfold dgetE. rewrite (H v Hv).
      assert (Np : mem v pre = false). { apply mem_false. assert (N := V_nodup). rewrite E in N. apply NoDup_remove_2 in N. rewrite in_app_iff in N. tauto. }
      rewrite Np. cbn [bind wp app]. intros w Hw. rewrite sget_set. destruct (SE w v) as [->|Hn].
      + assert (M : mem v (pre ++ [v]) = true) by (apply mem_true; apply in_or_app; right; left; reflexivity). rewrite M. reflexivity.
      + rewrite (H w Hw). f_equal. unfold mem. rewrite existsb_app. cbn. destruct (SE w v); [contradiction|]. rewrite !orb_false_r. reflexivity.
    - intros v Hv. cbn [mem existsb].
      assert (A : forall l d, (In v l \/ sdget d v = Some (@nil string)) -> sdget (fold_left (fun d v => sdset d v []) l d) v = Some (@nil string)).
      { induction l as [|a l IH]; intros d [X|X]; cbn; [destruct X|exact X| |].
        - apply IH. destruct X as [->|X]; [right; apply sget_set_eq|left; exact X].
        - apply IH. right. rewrite sget_set. destruct (SE v a); auto. }
      apply A. left. exact Hv.
    - intros d H v Hv. rewrite (H v Hv). assert (M : mem v V = true) by (apply mem_true; exact Hv). rewrite M. reflexivity.
  Qed.
  Lemma row_ok (i : Z) l : forall (na : list (list Z)), (forall u, In u l -> In u V) -> 0 <= i < len na ->
    forM l (fun u n_adj => idx_u <- dgetE (enum 0 V) u ;; row <- lget n_adj i ;; aset n_adj i (row ++ [idx_u])) na = Ret (zupd na i (zn [] na i ++ map pos l)).
  Proof.
    induction l as [|u l IH]; intros na HV Hi; cbn [forM].
    - cbn. rewrite app_nil_r. unfold zupd, zn. rewrite upd_nth_same. reflexivity.
    - rewrite dget_pos by (apply HV; left; reflexivity). cbn [bind]. rewrite (lget_ok _ []) by exact Hi. cbn [bind]. rewrite aset_ok by exact Hi. cbn [bind].
      rewrite IH; [|intros w Hw; apply HV; right; exact Hw|rewrite len_zupd; exact Hi]. rewrite zn_zupd_eq by exact Hi. cbn [map]. unfold zupd. rewrite upd_upd_same, <- app_assoc. reflexivity.
  Qed.
  Lemma nadj_ok d : (forall v, In v V -> sdget d v = Some (nb v)) ->
    wp (forM V (fun v n_adj => idx_v <- dgetE (enum 0 V) v ;; l <- dgetE d v ;;
          forM l (fun u n_adj => idx_u <- dgetE (enum 0 V) u ;; row <- lget n_adj idx_v ;; aset n_adj idx_v (row ++ [idx_u])) n_adj) (repeat [] (length V)))
       (fun na => len na = len V /\ forall i, 0 <= i < len V -> zn [] na i = map pos (nb (name i))).
  Proof.
    intros Hd. eapply wp_mono; [apply (wp_forM _ _ _ _ (fun pre na => len na = len V /\ forall i, 0 <= i < len V -> zn [] na i = if mem (name i) pre then map pos (nb (name i)) else []))|].
    - intros pre v post0 na E [L H]. assert (Hv : In v V) by (rewrite E; apply in_or_app; right; left; reflexivity). rewrite dget_pos by exact Hv. cbn [bind]. unfold dgetE at 1. rewrite (Hd v Hv). cbn [bind].
      destruct (pos_rng v Hv) as [Pv Nv]. rewrite row_ok; [|intros u Hu; apply nb_ok in Hu; [apply (edge_in _ _ Hu)|exact Hv]|lia]. cbn [wp].
      assert (Np : mem v pre = false). { apply mem_false. assert (N := V_nodup). rewrite E in N. apply NoDup_remove_2 in N. rewrite in_app_iff in N. tauto. }
      split; [rewrite len_zupd; exact L|]. intros i Hi. rewrite zn_zupd by lia. destruct (Z.eqb_spec (pos v) i) as [<-|Hn].
      + rewrite H by exact Pv. rewrite Nv, Np. assert (M : mem v (pre ++ [v]) = true) by (apply mem_true; apply in_or_app; right; left; reflexivity). rewrite M. reflexivity.
      + rewrite H by exact Hi. assert (M : mem (name i) (pre ++ [v]) = mem (name i) pre). { unfold mem. rewrite existsb_app. cbn. destruct (SE (name i) v) as [X|]; [exfalso; apply Hn; rewrite <- X; apply pos_name; exact Hi|]. rewrite !orb_false_r. reflexivity. } rewrite M. reflexivity.
    - split; [unfold len; rewrite repeat_length; reflexivity|]. intros i _. apply zn_repeat.
    - intros na [L H]. split; [exact L|]. intros i Hi. rewrite (H i Hi). assert (M : mem (name i) V = true) by (apply mem_true; apply name_in; exact Hi). rewrite M. reflexivity.
  Qed.

  Context (na : list (list Z)) (Ln : len na = len V) (Hna : forall i, 0 <= i < len V -> zn [] na i = map pos (nb (name i))).
  Lemma adj_edge i j : adj na i j <-> 0 <= i < len V /\ 0 <= j < len V /\ is_edge G (name i) (name j).
  Proof.
    unfold adj, rng. rewrite Ln. split.
    - intros [Hi H]. rewrite Hna in H by exact Hi. apply in_map_iff in H as (w & <- & H). apply nb_ok in H; [|apply name_in; exact Hi]. destruct (edge_in _ _ H) as [_ Hw]. destruct (pos_rng w Hw) as [A B]. rewrite B. auto.
    - intros (Hi & Hj & H). split; [exact Hi|]. rewrite Hna by exact Hi. apply in_map_iff. exists (name j). split; [apply pos_name; exact Hj|]. apply nb_ok; [apply name_in; exact Hi|exact H].
  Qed.
  Lemma adj_sym i j : adj na i j -> adj na j i.
  Proof. rewrite !adj_edge. intros (A & B & C). auto. Qed.
  Lemma name_inj i j : 0 <= i < len V -> 0 <= j < len V -> name i = name j -> i = j.
  Proof. intros A B C. rewrite <- (pos_name i A), <- (pos_name j B). congruence. Qed.
  Lemma lw_linked a b x y : 0 <= a < len V -> 0 <= b < len V -> lw na a b x y -> linked_without G (name a) (name b) (name x) (name y).
  Proof.
    intros Ha Hb H. induction H as [|y z H IH E N1 N2]; [constructor|]. apply adj_edge in E as (Hy & Hz & E). econstructor; [exact IH|exact E| |]; intros [A B]; apply name_inj in A; apply name_inj in B; auto.
  Qed.
  Lemma linked_lw a b x y : In a V -> In b V -> linked_without G a b x y -> lw na (pos a) (pos b) (pos x) (pos y).
  Proof.
    intros Ha Hb H. induction H as [|y z H IH E N1 N2]; [constructor|]. destruct (edge_in _ _ E) as [Hy Hz]. apply (lw_step na _ _ _ (pos y)); [exact IH| | |].
    - apply adj_edge. destruct (pos_rng y Hy) as [A B]. destruct (pos_rng z Hz) as [C D]. rewrite B, D. auto.
    - intros [A B]. apply pos_inj in A; auto. apply pos_inj in B; auto.
    - intros [A B]. apply pos_inj in A; auto. apply pos_inj in B; auto.
  Qed.
  Lemma bridge_names i j : 0 <= i < len V -> 0 <= j < len V -> (bridgeZ na i j <-> bridge G (name i) (name j)).
  Proof.
    intros Hi Hj. unfold bridgeZ, bridge. rewrite adj_edge. split; intros [A B].
    - split; [tauto|]. intros K. apply B. apply (linked_lw (name i) (name j)) in K; try (apply name_in; assumption). rewrite !pos_name in K by assumption. exact K.
    - split; [auto|]. intros K. apply B. apply lw_linked; assumption.
  Qed.

  Definition norm (p : Z * Z) : string * string := let '(u, v) := p in if String.leb (name u) (name v) then (name u, name v) else (name v, name u).
  Lemma names_ok l : (forall u v, In (u, v) l -> 0 <= u < len V /\ 0 <= v < len V) -> forall acc,
    forM l (fun '(u, v) bridges => a <- br_inv (enum 0 V) u ;; b <- br_inv (enum 0 V) v ;; Ret (bridges ++ [if String.leb a b then (a, b) else (b, a)])) acc = Ret (acc ++ map norm l).
  Proof.
    induction l as [|[u v] l IH]; intros H acc; cbn [forM]; [rewrite app_nil_r; reflexivity|]. destruct (H u v (or_introl eq_refl)) as [Hu Hv].
    assert (X := enum_inv V 0 u Hu). assert (Y := enum_inv V 0 v Hv). rewrite Z.add_0_l in X, Y. rewrite X, Y. cbn [bind]. rewrite IH by (intros a b Hab; apply H; right; exact Hab). rewrite <- app_assoc. reflexivity.
  Qed.
End F.

Lemma NoDup_map_in {X Y} (f : X -> Y) l : NoDup l -> (forall x y, In x l -> In y l -> f x = f y -> x = y) -> NoDup (map f l).
Proof.
  intros N. induction N as [|a l Na N IH]; intros H; cbn; constructor.
  - intros K. apply in_map_iff in K as (b & E & Hb). apply Na. rewrite (H a b); auto using in_eq, in_cons.
  - apply IH. intros x y Hx Hy. apply H; right; assumption.
Qed.

Theorem find_bridges_ok (g : gview) (G : dg) : represents g G -> undirected G ->
  exists l, find_bridges g = Ret l /\ NoDup l /\ Sorted pair_le l /\ (forall a b, In (a, b) l -> String.leb a b = true) /\ (forall a b, bridge G a b <-> In (a, b) l \/ In (b, a) l).
Proof.
  intros HG HU. apply wp_ex. unfold find_bridges. assert (EV : gv_vertices g = fst G) by apply HG. rewrite EV. rewrite mapping_enum by apply HG.
  apply wp_bind. eapply wp_mono; [apply (adj_ok g G HG)|]. intros d Hd. apply wp_bind. eapply wp_mono; [apply (nadj_ok g G HG d Hd)|]. intros na [Ln Hna].
  apply wp_bind. assert (Sym := adj_sym g G HG HU na Ln Hna).
  assert (LV : length (fst G) = Z.to_nat (len na)) by (rewrite Ln; unfold len; lia).
  rewrite LV. rewrite <- Ln. fold (start na).
  eapply wp_mono; [apply (all_ok na Sym)|]. intros st (HB & ND & HR). unfold rng in HR. rewrite Ln in HR.
  rewrite (names_ok G); [|intros u v H; destruct (HR u v H) as (A & B & _); auto]. cbn [bind app wp].
  set (L := map (norm G) (r_bridges st)). assert (P := sort_perm L).
  assert (NV : forall i j, 0 <= i < len (fst G) -> 0 <= j < len (fst G) -> name G i = name G j -> i = j) by (apply (name_inj g G HG)).
  assert (IL : forall a b, In (a, b) L <-> exists u v, In (u, v) (r_bridges st) /\ norm G (u, v) = (a, b)).
  { intros a b. unfold L. rewrite in_map_iff. split; [intros ([u v] & E & H); exists u, v; auto|intros (u & v & H & E); exists (u, v); auto]. }
  split; [|split; [apply sort_sorted|split]].
  - apply (Permutation_NoDup (Permutation_sym P)). apply NoDup_map_in; [apply (NoDup_map_inv snd); exact ND|].
    intros [u v] [u' v'] H1 H2 E. destruct (HR _ _ H1) as (A & B & C). destruct (HR _ _ H2) as (A' & B' & C'). unfold norm in E.
    destruct (String.leb (name G u) (name G v)), (String.leb (name G u') (name G v')); injection E as E1 E2; apply NV in E1; auto; apply NV in E2; auto; subst; try reflexivity; exfalso; auto.
  - intros a b H. apply (Permutation_in _ P) in H. apply IL in H as (u & v & _ & E). unfold norm in E. destruct (String.leb (name G u) (name G v)) eqn:L1; injection E as <- <-; [exact L1|]. destruct (String.leb_total (name G u) (name G v)); [congruence|assumption].
  - assert (IN : forall a b, (In (a, b) (fold_right pair_insert [] L) <-> In (a, b) L)) by (intros a b; split; apply Permutation_in; [exact P|symmetry; exact P]).
    intros a b. rewrite !IN, !IL. split.
    + intros BR. destruct (edge_in g G HG _ _ (proj1 BR)) as [Va Vb]. destruct (in_name G a Va) as (i & Hi & <-). destruct (in_name G b Vb) as (j & Hj & <-).
      apply (bridge_names g G HG na Ln Hna) in BR; auto. apply HB in BR as [H|H].
      * unfold norm. destruct (String.leb (name G i) (name G j)) eqn:L1; [left|right]; exists i, j; rewrite L1; auto.
      * unfold norm. destruct (String.leb (name G j) (name G i)) eqn:L1; [right|left]; exists j, i; rewrite L1; auto.
    + assert (X : forall a b, (exists u v, In (u, v) (r_bridges st) /\ norm G (u, v) = (a, b)) -> bridge G a b /\ bridge G b a).
      { clear a b. intros a b (u & v & H & E). destruct (HR u v H) as (Ru & Rv & _). assert (B1 : bridgeZ na u v) by (apply HB; auto). assert (B2 : bridgeZ na v u) by (apply HB; auto).
        apply (bridge_names g G HG na Ln Hna) in B1; auto. apply (bridge_names g G HG na Ln Hna) in B2; auto. unfold norm in E. destruct (String.leb _ _); injection E as <- <-; auto. }
      intros [H|H]; apply X in H; tauto.
Qed.
