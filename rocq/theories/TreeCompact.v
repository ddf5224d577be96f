(** Proofs: ArrayForTrees._modify renumbers the cells of the array and all links between them. *)
From Coq Require Import Sorting.Sorted.
From Verif Require Import Base TreeModel TreeModel2 TreeSpec TreeProofs TreeRotate TreeBst TreeTrav TreeQuery TreeLca TreeDel TreeHist TreeBalSpec TreeAvl TreeAvl2 TreeSim TreeTreap TreeDel2.

Section Compact.
  Context {D : Type}.
  Notation info := (info D). Notation node := (node D). Notation mem := (mem D). Notation bst := (bst D). Notation bt := (bt D). Notation ctx := (ctx D). Notation aft := (aft D).
  Definition used (m : mem) (i : Z) : bool := match cell m i with Some _ => true | None => false end.
  (** the number of used cells below i: the new number of cell i *)
  Definition sg (m : mem) (i : Z) : Z := len (filter (used m) (zrange 0 i)).
  Lemma sg_0 m : sg m 0 = 0.
  Proof. reflexivity. Qed.
  Lemma sg_step m i : 0 <= i -> sg m (i + 1) = sg m i + (if used m i then 1 else 0).
  Proof. intros H. unfold sg. rewrite zrange_snoc by lia. replace (i + 1 - 1) with i by lia. rewrite filter_app. cbn [filter]. unfold len. rewrite app_length. destruct (used m i); cbn [length]; lia. Qed.
  Lemma sg_mono m i : 0 <= i -> forall k, i <= k -> sg m i <= sg m k.
  Proof. intros H. apply (Zlt_lower_bound_ind (fun k => sg m i <= sg m k) i). intros k IH Hk. destruct (Z.eq_dec k i) as [->|]; [lia|]. assert (X := IH (k - 1) ltac:(lia)). replace k with (k - 1 + 1) by lia. rewrite sg_step by lia. destruct (used m (k - 1)); lia. Qed.
  Lemma sg_lt m i k : 0 <= i < k -> used m i = true -> sg m i < sg m k.
  Proof. intros H U. assert (X := sg_mono m (i + 1) ltac:(lia) k ltac:(lia)). rewrite sg_step, U in X by lia. lia. Qed.
  Lemma sg_inj m i k : 0 <= i -> 0 <= k -> used m i = true -> used m k = true -> sg m i = sg m k -> i = k.
  Proof. intros H1 H2 U1 U2 HE. destruct (Z.lt_total i k) as [L|[L|L]]; [|exact L|]; [pose proof (sg_lt m i k ltac:(lia) U1)|pose proof (sg_lt m k i ltac:(lia) U2)]; lia. Qed.
  Lemma sg_nonneg m i : 0 <= sg m i.
  Proof. unfold sg. apply len_nonneg. Qed.
  Lemma sg_onto m n q : 0 <= n -> 0 <= q < sg m n -> exists i, 0 <= i < n /\ used m i = true /\ q = sg m i.
  Proof.
    intros Hn. revert n Hn q. apply (Zlt_lower_bound_ind (fun n => forall q, 0 <= q < sg m n -> exists i, 0 <= i < n /\ used m i = true /\ q = sg m i) 0). intros n IH Hn q Hq.
    destruct (Z.eq_dec n 0) as [->|]; [rewrite sg_0 in Hq; lia|]. replace n with (n - 1 + 1) in Hq by lia. rewrite sg_step in Hq by lia.
    destruct (Z_lt_dec q (sg m (n - 1))) as [L|L]; [destruct (IH (n - 1) ltac:(lia) q ltac:(lia)) as (i & A & B & C); exists i; split; [lia|auto]|].
    destruct (used m (n - 1)) eqn:U; [|lia]. exists (n - 1). split; [lia|]. split; [exact U|lia].
  Qed.
  Lemma sg_filter m n : 0 <= n -> NoDup (filter (used m) (zrange 0 n)).
  Proof. intros _. apply NoDup_filter. unfold zrange. apply FinFun.Injective_map_NoDup; [|apply seq_NoDup]. intros x y. lia. Qed.
  Definition renn (s : Z -> Z) (n : node) : node := mknode (n_inf n) (option_map s (n_left n)) (option_map s (n_right n)) (option_map s (n_parent n)).
  Lemma od_same d (k : option Z) v : odget (odset d k v) k = Some v.
  Proof. induction d as [|[k' w] d IH]; cbn [odset odget]; [destruct k as [z|]; cbn [oeqb]; rewrite ?Z.eqb_refl; reflexivity|]. destruct (oeqb k k') eqn:Ek; cbn [odget]; rewrite Ek; [reflexivity|exact IH]. Qed.
  Lemma od_other d (k k2 : option Z) v : k <> k2 -> odget (odset d k v) k2 = odget d k2.
  Proof.
    intros NE. induction d as [|[k' w] d IH]; cbn [odset odget].
    - destruct (oeqb_spec k2 k) as [->|]; [congruence|reflexivity].
    - destruct (oeqb_spec k k') as [->|N1]; cbn [odget]; [|rewrite IH; reflexivity]. destruct (oeqb_spec k2 k') as [->|]; [congruence|reflexivity].
  Qed.
  Definition linked (m : mem) (n : node) (last : Z) : Prop := forall l, n_left n = Some l \/ n_right n = Some l \/ n_parent n = Some l -> 0 <= l <= last /\ used m l = true.
  Lemma modify_ok (a : aft) : let m := a_data a in let last := a_last a in 4 * a_num a < len m -> -1 <= last < len m -> sg m (last + 1) = a_num a ->
    (forall i j n n', 0 <= i <= last -> 0 <= j <= last -> cell m i = Some n -> cell m j = Some n' -> n_key n = n_key n' -> i = j) ->
    (forall i n, 0 <= i <= last -> cell m i = Some n -> linked m n last) ->
    exists m' d, aft_modify a = Ret (mkaft m' (a_num a) (a_num a - 1), Some d) /\ len m' = 2 * a_num a + 1 /\
      (forall i n, 0 <= i <= last -> cell m i = Some n -> cell m' (sg m i) = Some (renn (sg m) n) /\ odgetE d (n_key n) = Ret (sg m i)).
  Proof.
    intros m last HN HB HS HK HL. unfold aft_modify. fold m last. replace (4 * a_num a <? len m) with true by lia. assert (NN : 0 <= a_num a) by (rewrite <- HS; apply sg_nonneg).
    assert (LB : forall i, 0 <= i <= last -> sg m i + (if used m i then 1 else 0) <= a_num a) by (intros i Hi; rewrite <- HS, <- sg_step by lia; apply sg_mono; lia).
    match goal with |- context [bind (forM ?l ?bd ?s0) _] => assert (W : wp (forM l bd s0) (fun st => let '(arr, d, j) := st in j = a_num a /\ len arr = 2 * a_num a + 1 /\ forall i n, 0 <= i <= last -> cell m i = Some n -> cell arr (sg m i) = Some n /\ odgetE d (n_key n) = Ret (sg m i))) end.
    { eapply (wp_for_range _ _ _ _ (fun k st => let '(arr, d, j) := st in j = sg m k /\ len arr = 2 * a_num a + 1 /\ forall i n, 0 <= i < k -> cell m i = Some n -> cell arr (sg m i) = Some n /\ odgetE d (n_key n) = Ret (sg m i))).
      - split; [reflexivity|]. split; [unfold len; rewrite repeat_length; lia|]. intros i n Hi. lia.
      - intros k [[arr d] j] Hk (Ej & La & HI). specialize (LB k ltac:(lia)). assert (IB : inb m k) by (unfold inb; lia).
        assert (HG : exists o, aget m k = Ret o /\ cell m k = o). { unfold cell. rewrite (aget_ok _ None) by exact IB. eexists. split; [reflexivity|]. destruct (zn None m k); reflexivity. }
        destruct HG as (o & EG & EC). rewrite EG. cbn [bind]. unfold used in LB. rewrite EC in LB. destruct o as [n|].
        + pose proof (sg_nonneg m k). rewrite aset_ok by lia. cbn [bind wp]. assert (IA : inb arr j) by (unfold inb; lia). rewrite sg_step by lia. unfold used. rewrite EC. split; [lia|]. split; [rewrite len_zupd; exact La|].
          intros i n0 Hi Ci. rewrite cell_zupd by exact IA. destruct (Z.eq_dec i k) as [->|NE].
          * rewrite EC in Ci. injection Ci as <-. rewrite Ej, Z.eqb_refl. split; [reflexivity|]. unfold odgetE. rewrite od_same. reflexivity.
          * destruct (HI i n0 ltac:(lia) Ci) as [A B]. assert (U : used m i = true) by (unfold used; rewrite Ci; reflexivity). assert (L := sg_lt m i k ltac:(lia) U). replace (sg m i =? j) with false by lia. split; [exact A|].
            unfold odgetE in *. rewrite od_other; [exact B|]. intros X. apply NE. symmetry. eapply HK; [| |exact EC|exact Ci|exact X]; lia.
        + cbn [wp]. rewrite sg_step by lia. unfold used. rewrite EC. split; [lia|]. split; [exact La|]. intros i n Hi Ci. apply HI; [|exact Ci]. assert (i <> k) by (intros ->; congruence). lia.
      - intros [[arr d] j] (Ej & La & HI). replace (Z.max 0 (last + 1)) with (last + 1) in * by lia. split; [congruence|]. split; [exact La|]. intros i n Hi. apply HI. lia. }
    apply wp_ex in W as ([[arr d] j] & E1 & -> & La & HI). rewrite E1. cbn [bind]. cbv zeta.
    assert (RN : forall l, (forall i, l = Some i -> 0 <= i <= last /\ used m i = true) -> (match l with None => Ret None | Some _ => n0 <- tget m l ;; v <- odgetE d (n_key n0) ;; Ret (Some v) end) = Ret (option_map (sg m) l)).
    { intros [i|] Hi; [|reflexivity]. destruct (Hi i eq_refl) as [B U]. unfold used in U. destruct (cell m i) as [n0|] eqn:Ci; [|discriminate]. rewrite (tget_ok _ _ _ Ci). cbn [bind]. rewrite (proj2 (HI i n0 B Ci)). reflexivity. }
    match goal with |- context [bind (forM ?l ?bd ?s0) _] => assert (W : wp (forM l bd s0) (fun arr' => len arr' = 2 * a_num a + 1 /\ forall i n, 0 <= i <= last -> cell m i = Some n -> cell arr' (sg m i) = Some (renn (sg m) n))) end.
    { eapply (wp_for_range _ _ _ _ (fun q arr' => len arr' = 2 * a_num a + 1 /\ forall i n, 0 <= i <= last -> cell m i = Some n -> cell arr' (sg m i) = Some (if sg m i <? q then renn (sg m) n else n))).
      - split; [exact La|]. intros i n Hi Ci. pose proof (sg_nonneg m i). replace (sg m i <? 0) with false by lia. apply HI; assumption.
      - intros q arr' Hq (La' & HI'). destruct (sg_onto m (last + 1) q ltac:(lia) ltac:(lia)) as (i & Bi & Ui & ->). unfold used in Ui. destruct (cell m i) as [n|] eqn:Ci; [|discriminate]. assert (C' := HI' i n ltac:(lia) Ci). rewrite Z.ltb_irrefl in C'.
        rewrite (tget_ok _ _ _ C'). cbn [bind]. assert (LK := HL i n ltac:(lia) Ci). rewrite (RN (n_left n)) by (intros k Ek; apply LK; auto). cbn [bind]. rewrite (RN (n_right n)) by (intros k Ek; apply LK; auto). cbn [bind]. rewrite (RN (n_parent n)) by (intros k Ek; apply LK; auto). cbn [bind].
        rewrite aset_ok by lia. cbn [wp]. split; [rewrite len_zupd; exact La'|]. intros k nk Hk Ck. rewrite cell_zupd by (unfold inb; lia). destruct (Z.eqb_spec (sg m k) (sg m i)) as [ES|NS].
        + assert (k = i). { apply (sg_inj m); [lia|lia| | |exact ES]; unfold used; [rewrite Ck|rewrite Ci]; reflexivity. } subst k. replace (sg m i <? sg m i + 1) with true by lia. assert (nk = n) by congruence. subst nk. reflexivity.
        + rewrite (HI' k nk Hk Ck). f_equal. destruct (Z.ltb_spec (sg m k) (sg m i)), (Z.ltb_spec (sg m k) (sg m i + 1)); try reflexivity; lia.
      - intros arr' (La' & HI'). replace (Z.max 0 (a_num a)) with (a_num a) in * by lia. split; [exact La'|]. intros i n Hi Ci. rewrite (HI' i n Hi Ci). specialize (LB i Hi). unfold used in LB. rewrite Ci in LB. replace (sg m i <? a_num a) with true by lia. reflexivity. }
    apply wp_ex in W as (m' & E2 & Lm & HM). rewrite E2. cbn [bind]. exists m', d. split; [reflexivity|]. split; [exact Lm|]. intros i n Hi Ci. split; [apply HM; assumption|apply (HI i n Hi Ci)].
  Qed.

  (** ** the renumbered tree *)
  Fixpoint ren (s : Z -> Z) (T : bt) : bt := match T with E => E | N l i x r => N (ren s l) (s i) x (ren s r) end.
  Fixpoint renc (s : Z -> Z) (c : ctx) : ctx := match c with Top => Top | CL c i x r => CL (renc s c) (s i) x (ren s r) | CR c l i x => CR (renc s c) (ren s l) (s i) x end.
  Lemma ren_plug s c : forall S, ren s (plug c S) = plug (renc s c) (ren s S).
  Proof. induction c as [|c IH i x r|c IH l i x]; intros S; cbn [plug renc ren]; [reflexivity|..]; rewrite IH; reflexivity. Qed.
  Lemma ren_root s (T : bt) : root (ren s T) = option_map s (root T).
  Proof. destruct T; reflexivity. Qed.
  Lemma ren_cpar s c : cpar (renc s c) = option_map s (cpar c).
  Proof. destruct c; reflexivity. Qed.
  Lemma ren_infos s (T : bt) : infos (ren s T) = infos T.
  Proof. induction T as [|l IHl i x r IHr]; cbn; [reflexivity|]. rewrite IHl, IHr. reflexivity. Qed.
  Lemma ren_idx s (T : bt) : idx (ren s T) = map s (idx T).
  Proof. induction T as [|l IHl i x r IHr]; cbn [ren idx map]; [reflexivity|]. rewrite IHl, IHr, map_app. reflexivity. Qed.
  Lemma ren_nodes s (T : bt) : nodes (ren s T) = nodes T.
  Proof. induction T as [|l IHl i x r IHr]; cbn [ren nodes]; lia. Qed.
  Lemma ren_heap s (T : bt) : forall lo, heap lo T -> heap lo (ren s T).
  Proof. induction T as [|l IHl i x r IHr]; intros lo; cbn [ren heap]; [auto|]. intros (p & A & B & C & F). exists p. auto. Qed.
  Lemma ren_rep s (m m' : mem) T : forall p, (forall i n, In i (idx T) -> cell m i = Some n -> cell m' (s i) = Some (renn s n)) -> rep m T p -> rep m' (ren s T) (option_map s p).
  Proof.
    induction T as [|l IHl i x r IHr]; intros p HC; cbn [rep ren]; [auto|]. intros (A & B & C). rewrite !ren_root. split; [apply (HC i) in A; [exact A|cbn; rewrite in_app_iff; cbn; auto]|].
    split; [apply (IHl (Some i))|apply (IHr (Some i))]; try assumption; intros k n Hk; apply HC; cbn; rewrite in_app_iff; cbn; auto.
  Qed.
End Compact.
