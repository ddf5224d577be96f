(** Proofs about the LLVM backend: the wrapper around the compiled function, and the cache of compiled functions. *)
From Coq Require Import String.
From Verif Require Import Base SortSpec SortProofs CppModel CppSpec CppProofs LlvmModel LlvmProofs.
Open Scope Z_scope.

(** the values of a list of cells *)
Definition vals_of {V} (a : list (option V)) : list V := flat_map (fun x => match x with Some v => [v] | None => [] end) a.
Lemma vals_app V (a b : list (option V)) : vals_of (a ++ b) = (vals_of a ++ vals_of b)%list.
Proof. apply flat_map_app. Qed.
Lemma vals_in V (a : list (option V)) v : In v (vals_of a) <-> In (Some v) a.
Proof.
  induction a as [|x a IH]; [reflexivity|]. unfold vals_of in *. cbn [flat_map In]. rewrite in_app_iff, IH. destruct x as [x|]; cbn [In].
  - split; intros [H|H]; auto; left; [destruct H as [H|[]]; congruence|left; congruence].
  - split; intros [H|H]; auto; [destruct H|discriminate].
Qed.
Lemma vals_perm V (a : list (option V)) : Permutation a (map Some (vals_of a) ++ repeat None (length a - length (vals_of a))).
Proof.
  assert (L : forall a : list (option V), (length (vals_of a) <= length a)%nat).
  { unfold vals_of. induction a0 as [|[x|] a0 IH]; cbn [flat_map app length]; lia. }
  induction a as [|[x|] a IH]; [reflexivity| |].
  - cbn. constructor. exact IH.
  - cbn [length vals_of flat_map app]. fold (vals_of a). specialize (L a). replace (S (length a) - length (vals_of a))%nat with (S (length a - length (vals_of a))) by lia.
    cbn [repeat]. apply Permutation_cons_app. exact IH.
Qed.
Lemma vals_length V (a : list (option V)) : (length (vals_of a) <= length a)%nat.
Proof. unfold vals_of. induction a as [|[x|] a IH]; cbn [flat_map app length]; lia. Qed.

Lemma seg_snoc V (a : list (option V)) s e : 0 <= s -> s <= e -> e < len a -> seg a s e = (seg a s (e - 1) ++ [zn None a e])%list.
Proof.
  intros Hs He Hl. apply (zn_ext _ None).
  - rewrite seg_len by lia. unfold len at 1. rewrite app_length. pose proof (seg_len a s (e - 1) ltac:(lia) ltac:(lia) ltac:(lia)) as HL. unfold len in HL. cbn [length]. lia.
  - rewrite seg_len by lia. intros i Hi. rewrite zn_seg by lia. destruct (Z.eq_dec i (e - s)) as [->|].
    + unfold zn at 2. rewrite app_nth2; pose proof (seg_len a s (e - 1) ltac:(lia) ltac:(lia) ltac:(lia)) as HL; unfold len in HL; [|lia].
      replace (Z.to_nat (e - s) - length (seg a s (e - 1)))%nat with 0%nat by lia. cbn. f_equal. lia.
    + unfold zn at 2. rewrite app_nth1; [|pose proof (seg_len a s (e - 1) ltac:(lia) ltac:(lia) ltac:(lia)) as HL; unfold len in HL; lia].
      change (nth (Z.to_nat i) (seg a s (e - 1)) None) with (zn None (seg a s (e - 1)) i). rewrite zn_seg by lia. reflexivity.
Qed.

Lemma gather_ok V (a : list (option V)) lower cnt : 0 <= lower -> 0 <= cnt -> lower + cnt <= len a ->
  gather a lower cnt = Ret (vals_of (seg a lower (lower + cnt - 1))).
Proof.
  intros H1 H2 H3. unfold gather.
  match goal with |- ?m = _ => cut (wp m (fun r => r = vals_of (seg a lower (lower + cnt - 1)))) end.
  { intros H. apply wp_ex in H. destruct H as (r & -> & ->). reflexivity. }
  apply (wp_for_range _ 0 cnt _ (fun k vals => vals = vals_of (seg a lower (lower + k - 1)))).
  all: try lia.
  - unfold seg. replace (Z.to_nat (lower + 0 - 1 + 1 - lower)) with 0%nat by lia. reflexivity.
  - intros k vals Hk ->. rewrite (cget_ok _ None a) by lia. cbn [bind]. apply wp_ret.
    replace (lower + (k + 1) - 1) with (lower + k) by lia. rewrite (seg_snoc _ a lower (lower + k)) by lia. rewrite vals_app.
    destruct (zn None a (lower + k)); cbn; [reflexivity|]. rewrite app_nil_r. reflexivity.
  - intros vals ->. rewrite Z.max_r by lia. reflexivity.
Qed.

Lemma write_back_ok V (d : V) (a : list (option V)) lower cnt buf : 0 <= lower -> len buf <= cnt -> lower + cnt <= len a ->
  exists b, write_back a lower cnt buf = Ret b /\ len b = len a /\
    (forall i, 0 <= i < len buf -> zn None b (lower + i) = Some (zn d buf i)) /\
    (forall i, len buf <= i < cnt -> zn None b (lower + i) = None) /\
    (forall i, 0 <= i -> i < lower \/ lower + cnt - 1 < i -> zn None b i = zn None a i).
Proof.
  intros H1 H2 H3. pose proof (len_nonneg _ buf) as H0. apply wp_ex. unfold write_back. apply wp_bind.
  apply (wp_for_range _ 0 (len buf) _ (fun k b => len b = len a /\ (forall i, 0 <= i < k -> zn None b (lower + i) = Some (zn d buf i)) /\
    (forall i, 0 <= i -> i < lower \/ lower + k - 1 < i -> zn None b i = zn None a i))).
  - split; [reflexivity|]. split; [lia|reflexivity].
  - intros k b Hk (L & A & B). rewrite (cget_ok _ d buf) by lia. cbn [bind]. rewrite cset_ok by lia. apply wp_ret.
    split; [rewrite len_zupd; exact L|]. split.
    + intros i Hi. destruct (Z.eq_dec i k) as [->|]; [apply zn_zupd_eq; lia|]. rewrite zn_zupd_ne by lia. apply A. lia.
    + intros i Hi Ho. rewrite zn_zupd_ne by lia. apply B; lia.
  - intros b. rewrite Z.max_r by lia. intros (L & A & B).
    apply (wp_for_range _ (len buf) cnt _ (fun k b => len b = len a /\ (forall i, 0 <= i < len buf -> zn None b (lower + i) = Some (zn d buf i)) /\
      (forall i, len buf <= i < k -> zn None b (lower + i) = None) /\
      (forall i, 0 <= i -> i < lower \/ lower + k - 1 < i -> zn None b i = zn None a i))).
    + split; [exact L|]. split; [exact A|]. split; [lia|exact B].
    + intros k b' Hk (L' & A' & N' & B'). rewrite cset_ok by lia. apply wp_ret. split; [rewrite len_zupd; exact L'|]. split; [|split].
      * intros i Hi. rewrite zn_zupd_ne by lia. apply A'. lia.
      * intros i Hi. destruct (Z.eq_dec i k) as [->|]; [apply zn_zupd_eq; lia|]. rewrite zn_zupd_ne by lia. apply N'. lia.
      * intros i Hi Ho. rewrite zn_zupd_ne by lia. apply B'; lia.
    + intros b'. rewrite Z.max_r by lia. intros H. exact H.
Qed.

(** ** the cache *)
Definition good (c : cache) : Prop := forall d p, cache_find c d = Some p -> p = bub.
Lemma dtype_eqb_spec a b : reflect (a = b) (dtype_eqb a b).
Proof. destruct a, b; constructor; congruence. Qed.
Lemma get_ptr_good s c d : good c -> good (snd (get_ptr s c d)) /\ forall p, fst (get_ptr s c d) = Ret p -> p = bub.
Proof.
  intros G. unfold get_ptr. destruct d; try (split; [exact G|discriminate]);
    (destruct (cache_find c _) eqn:E; [split; [exact G|cbn; intros ? [= <-]; exact (G _ _ E)]|]);
    (destruct s; cbn [builder_of]; [rewrite build_bub|rewrite build_sel; split; [exact G|discriminate]]);
    (split; [|cbn; intros ? [= <-]; reflexivity]); (intros d' p; cbn [snd cache_find]; destruct (dtype_eqb _ _); [intros [= <-]; reflexivity|apply G]).
Qed.
Lemma get_ptr_ok s c d : good c -> d <> OtherDtype -> s = BubbleSort \/ cache_find c d <> None ->
  fst (get_ptr s c d) = Ret bub /\ cache_find (snd (get_ptr s c d)) d = Some bub.
Proof.
  intros G Hd Hs. unfold get_ptr. destruct d; try congruence;
    (destruct (cache_find c _) eqn:E; [rewrite (G _ _ E); split; [reflexivity|cbn; rewrite E, (G _ _ E); reflexivity]|]);
    (destruct Hs as [->|Hs]; [|congruence]); cbn [builder_of]; rewrite build_bub; split; reflexivity.
Qed.
Lemma get_ptr_sel c d : d <> OtherDtype -> cache_find c d = None -> get_ptr SelectionSort c d = (Raise RuntimeError, c).
Proof. intros Hd E. unfold get_ptr. destruct d; try congruence; rewrite E; cbn [builder_of]; rewrite build_sel; reflexivity. Qed.
Lemma get_ptr_keep s c d d' : cache_find c d' <> None -> cache_find (snd (get_ptr s c d)) d' <> None.
Proof.
  intros H. unfold get_ptr. destruct d; try exact H;
    (match goal with |- context [match cache_find c ?x with Some _ => _ | None => _ end] => destruct (cache_find c x) end; [exact H|]); (destruct (build _); cbn [snd cache_find]; [|exact H|exact H]); (destruct (dtype_eqb _ _); [discriminate|exact H]).
Qed.
Lemma get_ptr_sel_cache c d : snd (get_ptr SelectionSort c d) = c.
Proof.
  unfold get_ptr. destruct d; try reflexivity; (destruct (cache_find c _); [reflexivity|]); cbn [builder_of]; rewrite build_sel; reflexivity.
Qed.

Section Wrap.
  Context {V : Type} (lt : V -> V -> bool) (infer : V -> dtype) (fits : dtype -> V -> bool).
  Notation llvm_sort := (llvm_sort lt infer fits).

  (** the cache after a call is the old one or the one get_ptr leaves *)
  Lemma sort_cache fuel s c a start end_ cc d :
    snd (llvm_sort fuel s c a start end_ cc d) = c \/ exists dt, snd (llvm_sort fuel s c a start end_ cc d) = snd (get_ptr s c dt).
  Proof.
    unfold LlvmModel.llvm_sort. destruct (len a =? 0); [left; reflexivity|].
    destruct (bind _ _) as [[lower upper]| |]; try (left; reflexivity).
    destruct (_ || _); [left; reflexivity|]. destruct cc; [left; reflexivity|].
    destruct (gather _ _ _) as [vals| |]; try (left; reflexivity). destruct vals as [|v vals]; [left; reflexivity|].
    destruct (_ <? _); [left; reflexivity|]. right. exists (match d with Some d => d | None => infer v end).
    unfold call_sort. destruct (match d with Some d => d | None => infer v end); try reflexivity;
      destruct (get_ptr s c _) as [p c']; reflexivity.
  Qed.

  Context (le : V -> V -> Prop) (D : decides (fun x y => negb (lt y x)) le).

  (** the arguments resolve to a range lower..upper inside the array that holds a value *)
  Lemma unfold_sort fuel s c a start end_ d : len a < 2 ^ 31 -> 0 < len a ->
    0 <= range_start start -> range_start start < len a -> range_start start <= range_end a end_ < 2 ^ 63 ->
    llvm_sort fuel s c a start end_ false d =
    let lower := range_start start in let upper := Z.min (range_end a end_) (len a - 1) in
    match vals_of (seg a lower upper) with
    | [] => (Ret a, c)
    | v :: _ => call_sort lt fits fuel s c (match d with Some d => d | None => infer v end) a lower (upper - lower + 1) (vals_of (seg a lower upper))
    end.
  Proof.
    intros Hl H0 Hs1 Hs2 He. unfold LlvmModel.llvm_sort. destruct (Z.eqb_spec (len a) 0); [lia|].
    assert (Hw : 2 ^ 63 < word) by (rewrite word_val; lia).
    assert (E1 : wrap_lower start = Ret (range_start start)).
    { destruct start as [z|]; [|reflexivity]. cbn in *. unfold as_ssize. destruct (Z.ltb_spec z (- 2 ^ 63)), (Z.leb_spec (2 ^ 63) z); try lia.
      cbn. rewrite u64_id by lia. reflexivity. }
    assert (E2 : wrap_upper (len a) end_ = Ret (range_end a end_)).
    { destruct end_ as [z|]; [|reflexivity]. cbn in *. unfold as_ssize. destruct (Z.ltb_spec z (- 2 ^ 63)), (Z.leb_spec (2 ^ 63) z); try lia.
      cbn. rewrite u64_id by lia. reflexivity. }
    rewrite E1, E2. cbn [bind]. destruct (Z.ltb_spec (range_end a end_) (range_start start)); [lia|].
    destruct (Z.leb_spec (len a) (range_start start)); [lia|]. cbn [orb].
    assert (Eu : (if len a <=? range_end a end_ then len a - 1 else range_end a end_) = Z.min (range_end a end_) (len a - 1)).
    { destruct (Z.leb_spec (len a) (range_end a end_)); lia. }
    rewrite Eu. set (lower := range_start start) in *. set (upper := Z.min (range_end a end_) (len a - 1)).
    rewrite gather_ok by lia. replace (lower + (upper - lower + 1) - 1) with upper by lia. cbn zeta.
    destruct (vals_of (seg a lower upper)) as [|v vs]; [reflexivity|].
    destruct (Z.ltb_spec (2 ^ 31 - 1) (upper - lower + 1)); [lia|]. reflexivity.
  Qed.

  Lemma call_ok s c dt a lower upper v vs : len a < 2 ^ 31 -> good c -> 0 <= lower <= upper -> upper < len a ->
    vals_of (seg a lower upper) = v :: vs -> dt <> OtherDtype -> (forall v, In (Some v) a -> fits dt v = true) ->
    s = BubbleSort \/ cache_find c dt <> None ->
    exists F, forall fuel, (F <= fuel)%nat ->
      exists b c', call_sort lt fits fuel s c dt a lower (upper - lower + 1) (v :: vs) = (Ret b, c') /\ sorts le a lower upper b /\ cache_find c' dt <> None.
  Proof.
    intros Hl G Hlo Hup EV Hd Hf Hs. destruct (get_ptr_ok s c dt G Hd Hs) as [P1 P2].
    assert (HL : len (v :: vs) <= upper - lower + 1).
    { rewrite <- EV. pose proof (vals_length _ (seg a lower upper)) as HV. pose proof (seg_len a lower upper ltac:(lia) ltac:(lia) Hup) as HS. unfold len in *. lia. }
    destruct (run_passes lt v (v :: vs) ltac:(lia)) as (F & HF). exists F. intros fuel Hfu.
    assert (FA : forallb (fits dt) (v :: vs) = true).
    { apply forallb_forall. intros x Hx. apply Hf. rewrite <- EV in Hx. apply vals_in in Hx. unfold seg in Hx.
      rewrite <- (firstn_skipn (Z.to_nat lower) a). apply in_or_app. right. rewrite <- (firstn_skipn (Z.to_nat (upper + 1 - lower))). apply in_or_app. left. exact Hx. }
    destruct (passes_ok lt v le D (v :: vs)) as [PP PS]. set (buf := passes lt v (len (v :: vs) - 1) 0 (v :: vs)) in *.
    assert (LB : len buf = len (v :: vs)) by (unfold len; rewrite (Permutation_length PP); reflexivity).
    destruct (write_back_ok _ v a lower (upper - lower + 1) buf ltac:(lia) ltac:(lia) ltac:(lia)) as (b & EB & LL & B1 & B2 & B3).
    exists b, (snd (get_ptr s c dt)).
    assert (EC : call_sort lt fits fuel s c dt a lower (upper - lower + 1) (v :: vs) = (Ret b, snd (get_ptr s c dt))).
    { unfold call_sort. destruct (get_ptr s c dt) as [p c']. cbn [fst snd] in *. subst p. destruct dt; try congruence; cbn [bind];
        rewrite FA, (HF fuel Hfu); cbn [bind]; rewrite EB; reflexivity. }
    split; [exact EC|]. split; [|rewrite P2; discriminate]. split.
    - apply seg_rearr; try lia; [intros i Hi Ho; apply B3; lia|].
      rewrite (vals_perm _ (seg a lower upper)), EV.
      replace (seg b lower upper) with (map Some buf ++ repeat None (length (seg a lower upper) - length (v :: vs)))%list.
      + apply Permutation_app_tail. apply Permutation_map. exact PP.
      + pose proof (seg_len a lower upper ltac:(lia) ltac:(lia) Hup) as HS. apply (zn_ext _ None).
        * rewrite seg_len by lia. unfold len in *. rewrite app_length, map_length, repeat_length. lia.
        * unfold len at 1. rewrite app_length, map_length, repeat_length. intros i Hi. unfold len in *. rewrite zn_seg by (unfold len; lia).
          destruct (Z_lt_dec i (Z.of_nat (length buf))) as [Hi'|Hi'].
          -- rewrite (B1 i) by lia. unfold zn at 1. rewrite app_nth1 by (rewrite map_length; lia).
             rewrite (nth_indep _ None (Some v)) by (rewrite map_length; lia). rewrite map_nth. reflexivity.
          -- rewrite (B2 i) by lia. unfold zn at 1. rewrite app_nth2 by (rewrite map_length; lia). apply nth_repeat.
    - intros i j Hi Hij Hj. destruct (Z_lt_dec (j - lower) (len buf)) as [Hj'|Hj'].
      + replace j with (lower + (j - lower)) by lia. replace i with (lower + (i - lower)) by lia. rewrite (B1 (j - lower)), (B1 (i - lower)) by lia.
        cbn. apply PS; lia.
      + replace j with (lower + (j - lower)) by lia. rewrite (B2 (j - lower)) by lia. exact I.
  Qed.

  Lemma all_none a s e i j : 0 <= s -> e < len a -> vals_of (seg a s e) = [] -> s <= i -> i <= j -> j <= e -> none_last le (zn None a i) (zn None a j).
  Proof.
    intros Hs He EV Hi Hij Hj. destruct (zn None a j) as [v|] eqn:E; [|exact I]. exfalso.
    assert (H : In v (vals_of (seg a s e))); [|rewrite EV in H; exact H]. apply vals_in. rewrite <- E.
    replace j with (s + (j - s)) by lia. rewrite <- (zn_seg None a s e) by lia.
    apply nth_In. pose proof (seg_len a s e ltac:(lia) ltac:(lia) He) as HS. unfold len in HS. lia.
  Qed.

  Lemma sort_ok s c a start end_ d dt : good c -> len a < 2 ^ 31 -> 0 <= range_start start < 2 ^ 63 -> (end_ = None \/ 0 <= range_end a end_ < 2 ^ 63) ->
    dt <> OtherDtype -> (forall v, In (Some v) a -> fits dt v = true) -> (d = Some dt \/ d = None /\ forall v, In (Some v) a -> infer v = dt) ->
    s = BubbleSort \/ cache_find c dt <> None ->
    exists F, forall fuel, (F <= fuel)%nat ->
      exists b c', llvm_sort fuel s c a start end_ false d = (Ret b, c') /\
        sorts le a (range_start start) (Z.min (range_end a end_) (len a - 1)) b /\
        ((exists i, range_start start <= i <= range_end a end_ /\ i < len a /\ zn None a i <> None) -> cache_find c' dt <> None).
  Proof.
    intros G Hl Hs He Hd Hf Hdt Hc. pose proof (len_nonneg _ a) as H0.
    assert (He' : range_end a end_ < 2 ^ 63) by (destruct He as [->|]; cbn; lia).
    destruct (Z_lt_dec (range_start start) (len a)) as [H1|H1]; [destruct (Z_le_dec (range_start start) (range_end a end_)) as [H2|H2]|].
    - set (lower := range_start start) in *. set (upper := Z.min (range_end a end_) (len a - 1)).
      destruct (vals_of (seg a lower upper)) as [|v vs] eqn:EV.
      + exists 0%nat. intros fuel _. rewrite unfold_sort by lia. cbn zeta. fold lower upper. rewrite EV. exists a, c. split; [reflexivity|].
        split; [split; [apply rearr_refl|]; intros i j Hi Hij Hj; apply (all_none a lower upper); auto; lia|].
        intros (i & Hi & Hi' & Hne). exfalso. pose proof (all_none a lower upper lower i ltac:(lia) ltac:(lia) EV ltac:(lia) ltac:(lia) ltac:(lia)) as HN.
        pose proof (all_none a lower upper i i ltac:(lia) ltac:(lia) EV ltac:(lia) ltac:(lia) ltac:(lia)) as HN'.
        assert (In (zn None a i) (seg a lower upper)).
        { replace i with (lower + (i - lower)) by lia. rewrite <- (zn_seg None a lower upper) by lia.
          apply nth_In. pose proof (seg_len a lower upper ltac:(lia) ltac:(lia) ltac:(lia)) as HS. unfold len in HS. lia. }
        destruct (zn None a i) as [w|]; [|congruence]. apply vals_in in H. rewrite EV in H. exact H.
      + assert (Edt : match d with Some d => d | None => infer v end = dt).
        { destruct Hdt as [->|[-> H]]; [reflexivity|]. apply H. assert (Hv : In v (v :: vs)) by (left; reflexivity). rewrite <- EV in Hv. apply vals_in in Hv.
          unfold seg in Hv. rewrite <- (firstn_skipn (Z.to_nat lower) a). apply in_or_app. right. rewrite <- (firstn_skipn (Z.to_nat (upper + 1 - lower))). apply in_or_app. left. exact Hv. }
        destruct (call_ok s c dt a lower upper v vs Hl G ltac:(lia) ltac:(lia) EV Hd Hf Hc) as (F & HF). exists F. intros fuel Hfu.
        destruct (HF fuel Hfu) as (b & c' & E & S & C). exists b, c'. split; [|split; [exact S|intros _; exact C]].
        rewrite unfold_sort by lia. cbn zeta. fold lower upper. rewrite EV, Edt. exact E.
    - exists 0%nat. intros fuel _. exists a, c. split; [|split].
      + unfold LlvmModel.llvm_sort. destruct (len a =? 0); [reflexivity|].
        assert (Hw : 2 ^ 63 < word) by (rewrite word_val; lia).
        assert (E1 : wrap_lower start = Ret (range_start start)).
        { destruct start as [z|]; [|reflexivity]. cbn in *. unfold as_ssize. destruct (Z.ltb_spec z (- 2 ^ 63)), (Z.leb_spec (2 ^ 63) z); try lia.
          cbn. rewrite u64_id by lia. reflexivity. }
        assert (E2 : wrap_upper (len a) end_ = Ret (range_end a end_)).
        { destruct end_ as [z|]; [|reflexivity]. destruct He as [He|He]; [discriminate|]. cbn in *. unfold as_ssize.
          destruct (Z.ltb_spec z (- 2 ^ 63)), (Z.leb_spec (2 ^ 63) z); try lia. cbn. rewrite u64_id by lia. reflexivity. }
        rewrite E1, E2. cbn [bind]. destruct (Z.ltb_spec (range_end a end_) (range_start start)); [reflexivity|lia].
      + split; [apply rearr_refl|]. intros i j. lia.
      + intros (i & Hi & _). lia.
    - exists 0%nat. intros fuel _. exists a, c. split; [|split].
      + unfold LlvmModel.llvm_sort. destruct (Z.eqb_spec (len a) 0); [reflexivity|].
        assert (Hw : 2 ^ 63 < word) by (rewrite word_val; lia).
        assert (E1 : wrap_lower start = Ret (range_start start)).
        { destruct start as [z|]; [|reflexivity]. cbn in *. unfold as_ssize. destruct (Z.ltb_spec z (- 2 ^ 63)), (Z.leb_spec (2 ^ 63) z); try lia.
          cbn. rewrite u64_id by lia. reflexivity. }
        assert (E2 : exists u, wrap_upper (len a) end_ = Ret u).
        { destruct end_ as [z|]; [|eexists; reflexivity]. destruct He as [He|He]; [discriminate|]. cbn in *. unfold as_ssize.
          destruct (Z.ltb_spec z (- 2 ^ 63)), (Z.leb_spec (2 ^ 63) z); try lia. eexists. reflexivity. }
        destruct E2 as [u E2]. rewrite E1, E2. cbn [bind]. destruct (Z.leb_spec (len a) (range_start start)); [|lia]. rewrite Bool.orb_true_r. reflexivity.
      + split; [apply rearr_refl|]. intros i j Hi Hij Hj. destruct (Z_lt_dec i (len a)); [lia|]. unfold zn.
        rewrite !nth_overflow by (unfold len in *; lia). exact I.
      + intros (i & Hi & Hi' & _). lia.
  Qed.

  (** selection_sort without a compiled function raises as soon as there is a value to sort *)
  Lemma sel_raises fuel c a start end_ d dt i : cache_find c dt = None -> len a < 2 ^ 31 -> 0 <= range_start start -> range_end a end_ < 2 ^ 63 ->
    range_start start <= i <= range_end a end_ -> i < len a -> zn None a i <> None ->
    dt <> OtherDtype -> (d = Some dt \/ d = None /\ forall v, In (Some v) a -> infer v = dt) ->
    llvm_sort fuel SelectionSort c a start end_ false d = (Raise RuntimeError, c).
  Proof.
    intros Hc Hl Hs He Hi Hil Hne Hd Hdt. rewrite unfold_sort by lia. cbn zeta.
    set (lower := range_start start) in *. set (upper := Z.min (range_end a end_) (len a - 1)).
    destruct (vals_of (seg a lower upper)) as [|v vs] eqn:EV.
    - exfalso. assert (In (zn None a i) (seg a lower upper)).
      { replace i with (lower + (i - lower)) by lia. rewrite <- (zn_seg None a lower upper) by lia.
        apply nth_In. pose proof (seg_len a lower upper ltac:(lia) ltac:(lia) ltac:(lia)) as HS. unfold len in HS. lia. }
      destruct (zn None a i) as [w|]; [|congruence]. apply vals_in in H. rewrite EV in H. exact H.
    - assert (Edt : match d with Some d => d | None => infer v end = dt).
      { destruct Hdt as [->|[-> H]]; [reflexivity|]. apply H. assert (Hv : In v (v :: vs)) by (left; reflexivity). rewrite <- EV in Hv. apply vals_in in Hv.
        unfold seg in Hv. rewrite <- (firstn_skipn (Z.to_nat lower) a). apply in_or_app. right. rewrite <- (firstn_skipn (Z.to_nat (upper + 1 - lower))). apply in_or_app. left. exact Hv. }
      rewrite Edt. unfold call_sort. rewrite get_ptr_sel by auto. destruct dt; try congruence; reflexivity.
  Qed.
End Wrap.

(** ** sorted arrangements are unique when the order is antisymmetric *)
Section Unique.
  Context {V : Type} (le : V -> V -> Prop) (Anti : forall x y, le x y -> le y x -> x = y).
  Let R := none_last le.
  Lemma R_anti u v : R u v -> R v u -> u = v.
  Proof. destruct u, v; cbn; try easy. intros. f_equal. apply Anti; assumption. Qed.
  Definition asc (l : list (option V)) : Prop := forall i j, (i <= j < length l)%nat -> R (nth i l None) (nth j l None).
  Lemma asc_tail x l : asc (x :: l) -> asc l.
  Proof. intros H i j Hij. apply (H (S i) (S j)). cbn [length]. lia. Qed.
  Lemma asc_head x l y : asc (x :: l) -> In y (x :: l) -> R x y.
  Proof. intros H Hy. destruct (In_nth _ _ None Hy) as (k & Hk & <-). apply (H 0%nat k). lia. Qed.
  Lemma asc_unique : forall l l', Permutation l l' -> asc l -> asc l' -> l = l'.
  Proof.
    induction l as [|x l IH]; intros l' P A A'; [symmetry; apply Permutation_nil; exact P|].
    destruct l' as [|y l']; [apply Permutation_sym, Permutation_nil in P; discriminate|].
    assert (x = y) as ->.
    { apply R_anti; [apply (asc_head _ _ _ A); eapply Permutation_in; [symmetry; exact P|left; reflexivity]|
                     apply (asc_head _ _ _ A'); eapply Permutation_in; [exact P|left; reflexivity]]. }
    f_equal. apply IH; [exact (Permutation_cons_inv P)|exact (asc_tail _ _ A)|exact (asc_tail _ _ A')].
  Qed.
  Lemma sorts_unique a s e b b' : 0 <= s -> e < len a -> sorts le a s e b -> sorts le a s e b' -> b = b'.
  Proof.
    intros Hs He [RA SA] [RB SB]. pose proof (rearr_len _ _ _ _ _ RA) as LA. pose proof (rearr_len _ _ _ _ _ RB) as LB.
    destruct (Z_le_dec s (e + 1)) as [Hse|Hse].
    - assert (E : seg b s e = seg b' s e).
      { apply asc_unique.
        - etransitivity; [symmetry|]; eapply rearr_seg; eauto; lia.
        - intros i j Hij. pose proof (seg_len b s e Hs Hse ltac:(lia)) as HL. unfold len in HL.
          pose proof (zn_seg None b s e (Z.of_nat i) Hs ltac:(lia)) as Ei. pose proof (zn_seg None b s e (Z.of_nat j) Hs ltac:(lia)) as Ej.
          unfold zn at 1 in Ei. unfold zn at 1 in Ej. rewrite Nat2Z.id in Ei, Ej. rewrite Ei, Ej. apply SA; lia.
        - intros i j Hij. pose proof (seg_len b' s e Hs Hse ltac:(lia)) as HL. unfold len in HL.
          pose proof (zn_seg None b' s e (Z.of_nat i) Hs ltac:(lia)) as Ei. pose proof (zn_seg None b' s e (Z.of_nat j) Hs ltac:(lia)) as Ej.
          unfold zn at 1 in Ei. unfold zn at 1 in Ej. rewrite Nat2Z.id in Ei, Ej. rewrite Ei, Ej. apply SB; lia. }
      apply (zn_ext _ None); [lia|]. intros i Hi. destruct (Z_lt_dec i s); [rewrite (proj2 RA), (proj2 RB) by lia; reflexivity|].
      destruct (Z_lt_dec e i); [rewrite (proj2 RA), (proj2 RB) by lia; reflexivity|].
      replace i with (s + (i - s)) by lia. rewrite <- (zn_seg None b s e), <- (zn_seg None b' s e), E by lia. reflexivity.
    - apply (zn_ext _ None); [lia|]. intros i Hi. rewrite (proj2 RA), (proj2 RB) by lia. reflexivity.
  Qed.
End Unique.
