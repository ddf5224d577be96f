(** Floyd-Warshall (C80). *)
From Coq Require Import Strings.String Strings.Ascii.
From Verif Require Import Base DsfModel GraphModel GraphSpec GraphDict GraphProofs PathModel PathProofs.
Import List.

(** order with inf *)
Definition ole (x y : option Z) : Prop := forall b, y = Some b -> exists a, x = Some a /\ a <= b.
Lemma ole_refl x : ole x x.
Proof. intros b ->. exists b. split; [reflexivity|lia]. Qed.
Lemma ole_trans x y z : ole x y -> ole y z -> ole x z.
Proof. intros H1 H2 b E. destruct (H2 b E) as (a & Ea & L). destruct (H1 a Ea) as (c & Ec & L'). exists c. split; [exact Ec|lia]. Qed.
Lemma ole_add x y x' y' : ole x x' -> ole y y' -> ole (oadd x y) (oadd x' y').
Proof.
  intros H1 H2 b. destruct x' as [x'|], y' as [y'|]; simpl; try discriminate. intros [= <-]. destruct (H1 x' eq_refl) as (a & -> & L). destruct (H2 y' eq_refl) as (c & -> & L'). exists (a + c). split; [reflexivity|lia].
Qed.
Lemma oltb_false x y : oltb x y = false -> ole y x.
Proof. destruct x as [a|], y as [b|]; simpl; intros H c E; try discriminate. injection E as <-. apply Z.ltb_ge in H. exists b. split; [reflexivity|lia]. Qed.
Lemma oltb_true x y : oltb x y = true -> ole x y /\ exists a, x = Some a.
Proof. destruct x as [a|], y as [b|]; simpl; intros H; try discriminate; (split; [|eauto]); intros c E; try discriminate. injection E as <-. apply Z.ltb_lt in H. exists a. split; [reflexivity|lia]. Qed.
Definition omin (x y : option Z) : option Z := if oltb y x then y else x.
Lemma omin_l x y : ole (omin x y) x.
Proof. unfold omin. destruct (oltb y x) eqn:E; [apply oltb_true in E as [E _]; exact E|apply ole_refl]. Qed.
Lemma omin_r x y : ole (omin x y) y.
Proof. unfold omin. destruct (oltb y x) eqn:E; [apply ole_refl|apply oltb_false; exact E]. Qed.
Lemma omin_cases x y : omin x y = x \/ omin x y = y.
Proof. unfold omin. destruct (oltb y x); auto. Qed.
Lemma oadd_assoc x y z : oadd (oadd x y) z = oadd x (oadd y z).
Proof. destruct x, y, z; simpl; try reflexivity. f_equal. lia. Qed.

Section FW.
  Context (g : gview) (G : dg) (HG : represents g G) (HC : represents_costs g G) (HN : no_negative_cycle G).
  Notation V := (fst G).
  Definition rows {A} (d : list (string * list (string * A))) : Prop := map fst d = V.
  Lemma set2_ok {A} (d : list (string * list (string * A))) i j x : rows d -> In i V -> exists d', set2 d i j x = Ret d' /\ rows d' /\
    forall a b, (match sdget d' a with None => None | Some r => sdget r b end) = if String.eqb a i && String.eqb b j then Some x else match sdget d a with None => None | Some r => sdget r b end.
  Proof.
    intros R Hi. destruct (sget_some d i) as [row E]; [unfold rows in R; rewrite R; exact Hi|]. unfold set2, dgetE. rewrite E. cbn [bind]. eexists. split; [reflexivity|]. split.
    - unfold rows in *. rewrite sset_keys, R. apply mem_true in Hi. rewrite Hi. reflexivity.
    - intros a b. rewrite sget_set. destruct (SE a i) as [->|Ha]; cbn [andb]; [|reflexivity]. rewrite sget_set, E. reflexivity.
  Qed.
  Lemma set2_dist d i j x : rows d -> In i V -> exists d', set2 d i j x = Ret d' /\ rows d' /\ forall a b, dist2 d' a b = if String.eqb a i && String.eqb b j then x else dist2 d a b.
  Proof.
    intros R Hi. destruct (set2_ok d i j x R Hi) as (d' & E & R' & F). exists d'. split; [exact E|]. split; [exact R'|]. intros a b. specialize (F a b). unfold dist2.
    destruct (String.eqb a i && String.eqb b j).
    - destruct (sdget d' a) as [r|]; [|discriminate]. rewrite F. reflexivity.
    - destruct (sdget d' a) as [r|], (sdget d a) as [r0|].
      + rewrite F. reflexivity.
      + rewrite F. reflexivity.
      + rewrite <- F. reflexivity.
      + reflexivity.
  Qed.

  (** every entry is the cost of a walk *)
  Definition sound (d : list (string * list (string * option Z))) : Prop := forall i j x, In i V -> In j V -> dist2 d i j = Some x -> exists n, cwalk G i n x j.
  Lemma fw_dom u v c : has_cost G u v c -> In u V /\ In v V.
  Proof. intros H. apply HG. eapply cost_edge. exact H. Qed.
  Lemma verts : gv_vertices g = V.
  Proof. apply HG. Qed.
  Lemma cw_trans a n w b : cwalk G a n w b -> forall m w' c, cwalk G b m w' c -> exists k, cwalk G a k (w + w') c.
  Proof.
    intros H1 m w' c H2. induction H2 as [|m w2 u v c H2 IH Hc].
    - exists n. rewrite Z.add_0_r. exact H1.
    - destruct IH as (k & Hk). exists (S k). rewrite Z.add_assoc. apply cwalk_snoc with u; assumption.
  Qed.
  Lemma cw_in a n w b : In a V -> cwalk G a n w b -> In b V.
  Proof. intros Ha H. destruct H as [|n w u v c H Hc]; [exact Ha|]. apply (fw_dom _ _ _ Hc). Qed.
  Lemma sound_diag d v x : sound d -> In v V -> dist2 d v v = Some x -> 0 <= x.
  Proof. intros S Hv E. destruct (S v v x Hv Hv E) as (n & Hn). inversion Hn; subst; [lia|]. eapply HN. exact Hn. Qed.

  (** ** initialisation *)
  Lemma fold_rows {A} (l : list string) : forall (d : list (string * list (string * A))) , NoDup (map fst d ++ l) -> map fst (fold_left (fun d v => sdset d v []) l d) = map fst d ++ l.
  Proof.
    induction l as [|a l IH]; intros d N; cbn [fold_left]; [rewrite app_nil_r; reflexivity|].
    assert (Na : ~ In a (map fst d)) by (intros X; apply NoDup_remove_2 in N; apply N; apply in_or_app; left; exact X).
    assert (Ek : map fst (sdset d a []) = map fst d ++ [a]). { rewrite sset_keys. apply mem_false in Na. rewrite Na. reflexivity. }
    rewrite IH; [rewrite Ek, <- app_assoc; reflexivity|rewrite Ek, <- app_assoc; exact N].
  Qed.
  Lemma fold_empty {A} (l : list string) : forall (d : list (string * list (string * A))) x r, sdget (fold_left (fun d v => sdset d v []) l d) x = Some r -> r = [] \/ sdget d x = Some r.
  Proof.
    induction l as [|a l IH]; intros d x r E; cbn [fold_left] in E; [auto|]. apply IH in E as [E|E]; [auto|]. rewrite sget_set in E. destruct (String.eqb x a); [left; congruence|auto].
  Qed.

  (** ** one round *)
  Record fwi (K : list string) (d : list (string * list (string * option Z))) : Prop := {
    f_sound : sound d;
    f_diag : forall v, In v V -> dist2 d v v = Some 0;
    f_edge : forall u v c, has_cost G u v c -> ole (dist2 d u v) (Some c);
    f_tri : forall k i j, In k K -> In i V -> In j V -> ole (dist2 d i j) (oadd (dist2 d i k) (dist2 d k j)) }.

  Lemma round_tri K d d' k : incl (k :: K) V -> fwi K d -> (forall i j, In i V -> In j V -> dist2 d' i j = omin (dist2 d i j) (oadd (dist2 d i k) (dist2 d k j))) -> fwi (K ++ [k]) d'.
  Proof.
    intros I F E. assert (Hk : In k V) by (apply I; left; reflexivity).
    assert (Dk : forall i, In i V -> dist2 d' i k = dist2 d i k).
    { intros i Hi. rewrite E; [|exact Hi|exact Hk]. rewrite (f_diag _ _ F k Hk). unfold omin. destruct (dist2 d i k) as [x|]; simpl; [|reflexivity]. replace (x + 0) with x by lia. rewrite Z.ltb_irrefl. reflexivity. }
    assert (Kd : forall j, In j V -> dist2 d' k j = dist2 d k j).
    { intros i Hi. rewrite E; [|exact Hk|exact Hi]. rewrite (f_diag _ _ F k Hk). unfold omin. destruct (dist2 d k i) as [x|]; simpl; [|reflexivity]. replace (0 + x) with x by lia. destruct (Z.ltb_spec x x); [lia|reflexivity]. }
    assert (S' : sound d').
    { intros i j x Hi Hj Ex. rewrite E in Ex; [|exact Hi|exact Hj]. destruct (omin_cases (dist2 d i j) (oadd (dist2 d i k) (dist2 d k j))) as [Y|Y]; rewrite Y in Ex.
      - apply (f_sound _ _ F i j x Hi Hj Ex).
      - destruct (dist2 d i k) as [a|] eqn:Ea; [|discriminate]. destruct (dist2 d k j) as [b|] eqn:Eb; [|discriminate]. injection Ex as <-.
        destruct (f_sound _ _ F i k a Hi Hk Ea) as (n & Hn). destruct (f_sound _ _ F k j b Hk Hj Eb) as (m & Hm). apply (cw_trans _ _ _ _ Hn _ _ _ Hm). }
    constructor.
    - exact S'.
    - intros v Hv. assert (L := omin_l (dist2 d v v) (oadd (dist2 d v k) (dist2 d k v))). rewrite <- E in L by assumption. rewrite (f_diag _ _ F v Hv) in L. destruct (L 0 eq_refl) as (a & Ea & La).
      assert (X := sound_diag d' v a S' Hv Ea). rewrite Ea. f_equal. lia.
    - intros u v c Hc. destruct (fw_dom u v c Hc) as [Hu Hv]. eapply ole_trans; [rewrite E by assumption; apply omin_l|]. apply (f_edge _ _ F u v c Hc).
    - intros k' i j Hk' Hi Hj. apply in_app_or in Hk' as [Hk'|[<-|[]]].
      + assert (Hk'V : In k' V) by (apply I; right; exact Hk').
        assert (T := f_tri _ _ F). rewrite (E i j Hi Hj), (E i k' Hi Hk'V), (E k' j Hk'V Hj).
        destruct (omin_cases (dist2 d i k') (oadd (dist2 d i k) (dist2 d k k'))) as [-> | ->], (omin_cases (dist2 d k' j) (oadd (dist2 d k' k) (dist2 d k j))) as [-> | ->].
        * eapply ole_trans; [apply omin_l|]. apply T; assumption.
        * eapply ole_trans; [apply omin_r|]. rewrite <- oadd_assoc. apply ole_add; [apply T; assumption|apply ole_refl].
        * eapply ole_trans; [apply omin_r|]. rewrite oadd_assoc. apply ole_add; [apply ole_refl|apply T; assumption].
        * eapply ole_trans; [apply omin_r|]. rewrite oadd_assoc. apply ole_add; [apply ole_refl|]. rewrite <- oadd_assoc.
          assert (Tk := T k' k k Hk' Hk Hk). rewrite (f_diag _ _ F k Hk) in Tk.
          intros b Eb. destruct (oadd (dist2 d k k') (dist2 d k' k)) as [x|]; [|discriminate]. destruct (dist2 d k j) as [y|]; [|discriminate]. simpl in Eb. injection Eb as <-.
          destruct (Tk x eq_refl) as (z & [= <-] & Lz). exists y. split; [reflexivity|lia].
      + rewrite (Dk i Hi), (Kd j Hj), (E i j Hi Hj). apply omin_r.
  Qed.

  Definition D : Type := list (string * list (string * option Z)).
  Definition N : Type := list (string * list (string * option string)).
  Definition fw_body (k i j : string) : D * N -> res (D * N) := fun '(dist, next_vertex) =>
      if oltb (oadd (dist2 dist i k) (dist2 dist k j)) (dist2 dist i j) then
        dist <- set2 dist i j (oadd (dist2 dist i k) (dist2 dist k j)) ;;
        next_vertex <- set2 next_vertex i j (@None string) ;;
        Ret (dist, next_vertex)
      else Ret (dist, next_vertex).
  Lemma round_ok k st0 : In k V -> dist2 (fst st0) k k = Some 0 -> rows (fst st0) -> rows (snd st0) ->
    wp (forM V (fun i st => forM V (fw_body k i) st) st0) (fun st => rows (fst st) /\ rows (snd st) /\
       forall i j, In i V -> In j V -> dist2 (fst st) i j = omin (dist2 (fst st0) i j) (oadd (dist2 (fst st0) i k) (dist2 (fst st0) k j))).
  Proof.
    intros Hk D0 R0 R0'. destruct st0 as [d0 n0]. cbn [fst snd] in *.
    assert (ND : NoDup V) by apply HG.
    set (f := fun i j => omin (dist2 d0 i j) (oadd (dist2 d0 i k) (dist2 d0 k j))).
    assert (Fk : forall i, f i k = dist2 d0 i k).
    { intros i. unfold f. rewrite D0. unfold omin. destruct (dist2 d0 i k) as [x|]; simpl; [|reflexivity]. replace (x + 0) with x by lia. rewrite Z.ltb_irrefl. reflexivity. }
    assert (Kf : forall i, f k i = dist2 d0 k i).
    { intros i. unfold f. rewrite D0. unfold omin. destruct (dist2 d0 k i) as [x|]; cbn [oadd oltb]; [|reflexivity]. replace (0 + x) with x by lia. rewrite Z.ltb_irrefl. reflexivity. }
    eapply wp_mono; [apply (wp_forM _ _ V (fun i st => forM V (fw_body k i) st) (fun pre st => rows (fst st) /\ rows (snd st) /\
       forall i j, In i V -> In j V -> dist2 (fst st) i j = if mem i pre then f i j else dist2 d0 i j))|].
    - intros pre i post st Ei (R1 & R2 & F). assert (Hi : In i V) by (rewrite Ei; apply in_or_app; right; left; reflexivity).
      assert (Ni : ~ In i pre). { rewrite Ei in ND. apply NoDup_remove_2 in ND. intros X. apply ND. apply in_or_app. left. exact X. }
      eapply wp_mono; [apply (wp_forM _ _ V (fw_body k i) (fun prej st => rows (fst st) /\ rows (snd st) /\
         forall a b, In a V -> In b V -> dist2 (fst st) a b = if mem a pre || (String.eqb a i && mem b prej) then f a b else dist2 d0 a b))|].
      + intros prej j postj [d n] Ej (Q1 & Q2 & FJ). cbn [fst snd] in *. assert (Hj : In j V) by (rewrite Ej; apply in_or_app; right; left; reflexivity).
        assert (Nj : ~ In j prej). { rewrite Ej in ND. apply NoDup_remove_2 in ND. intros X. apply ND. apply in_or_app. left. exact X. }
        assert (E1 : dist2 d i k = dist2 d0 i k) by (rewrite FJ by assumption; rewrite Fk; destruct (mem i pre || _); reflexivity).
        assert (E2 : dist2 d k j = dist2 d0 k j) by (rewrite FJ by assumption; rewrite Kf; destruct (mem k pre || _); reflexivity).
        assert (E3 : dist2 d i j = dist2 d0 i j). { rewrite FJ by assumption. apply mem_false in Ni, Nj. rewrite Ni, Nj, String.eqb_refl. reflexivity. }
        unfold fw_body. rewrite E1, E2, E3.
        assert (FA : forall a b, (mem a pre || (String.eqb a i && mem b (prej ++ [j]))) = (mem a pre || (String.eqb a i && mem b prej)) || (String.eqb a i && String.eqb b j)).
        { intros a b. rewrite mem_app, mem_one. destruct (mem a pre), (String.eqb a i), (mem b prej), (String.eqb b j); reflexivity. }
        destruct (oltb (oadd (dist2 d0 i k) (dist2 d0 k j)) (dist2 d0 i j)) eqn:Lt.
        * destruct (set2_dist d i j (oadd (dist2 d0 i k) (dist2 d0 k j)) Q1 Hi) as (d' & -> & R1' & F1). cbn [bind].
          destruct (set2_ok n i j None Q2 Hi) as (n' & -> & R2' & _). cbn [bind wp fst snd]. split; [exact R1'|]. split; [exact R2'|].
          intros a b Ha Hb. rewrite F1, FA, FJ by assumption. destruct (SE a i) as [Ea|Ea], (SE b j) as [Eb|Eb]; cbn [andb]; rewrite ?orb_true_r, ?orb_false_r; try reflexivity.
          subst a b. unfold f, omin. rewrite Lt. reflexivity.
        * cbn [wp fst snd]. split; [exact Q1|]. split; [exact Q2|]. intros a b Ha Hb. rewrite FA, FJ by assumption. destruct (SE a i) as [Ea|Ea], (SE b j) as [Eb|Eb]; cbn [andb]; rewrite ?orb_true_r, ?orb_false_r; try reflexivity.
          subst a b. unfold f, omin. rewrite Lt. destruct (mem i pre || _); reflexivity.
      + split; [exact R1|]. split; [exact R2|]. intros a b Ha Hb. rewrite F by assumption. rewrite andb_false_r, orb_false_r. reflexivity.
      + intros st' (Q1 & Q2 & FJ). split; [exact Q1|]. split; [exact Q2|]. intros a b Ha Hb. rewrite FJ by assumption. rewrite mem_app, mem_one. apply mem_true in Hb. rewrite Hb, andb_true_r. reflexivity.
    - split; [exact R0|]. split; [exact R0'|]. intros i j _ _. reflexivity.
    - intros st (Q1 & Q2 & F). split; [exact Q1|]. split; [exact Q2|]. intros a b Ha Hb. rewrite F by assumption. apply mem_true in Ha. rewrite Ha. reflexivity.
  Qed.

  (** ** the edges and the diagonal *)
  Lemma edges_ok st0 : rows (fst st0) -> rows (snd st0) -> (forall i j, dist2 (fst st0) i j = None) ->
    wp (forM (gv_weights g) (fun '(name, edge) '(dist, next_vertex) =>
      dist <- set2 dist (e_src edge) (e_tgt edge) (Some (e_val edge)) ;;
      next_vertex <- set2 next_vertex (e_src edge) (e_tgt edge) (Some (e_src edge)) ;;
      Ret (dist, next_vertex)) st0)
      (fun st => rows (fst st) /\ rows (snd st) /\ forall u v c, dist2 (fst st) u v = Some c <-> has_cost G u v c).
  Proof.
    intros R0 R0' D0. destruct HC as [ND HW].
    eapply wp_mono; [apply (wp_forM _ _ _ _ (fun pre (st : D * N) => rows (fst st) /\ rows (snd st) /\ forall u v c, dist2 (fst st) u v = Some c <-> In (ekey u v, (u, v, c)) pre))|].
    - intros pre [key e] post [d n] E (R1 & R2 & F). cbn [fst snd] in *.
      assert (Hin : In (key, e) (gv_weights g)) by (rewrite E; apply in_or_app; right; left; reflexivity).
      destruct (proj1 (HW key e) Hin) as (u & v & c & -> & -> & Hc). destruct (fw_dom _ _ _ Hc) as [Hu Hv]. unfold e_src, e_tgt, e_val. cbn [fst snd].
      destruct (set2_dist d u v (Some c) R1 Hu) as (d' & -> & R1' & F1). cbn [bind].
      destruct (set2_ok n u v (Some u) R2 Hu) as (n' & -> & R2' & _). cbn [bind wp fst snd]. split; [exact R1'|]. split; [exact R2'|].
      intros a b x. rewrite F1. rewrite in_app_iff. destruct (SE a u) as [Ea|Ea]; cbn [andb].
      2:{ rewrite F. split; [auto|]. intros [H|[H|[]]]; [exact H|congruence]. }
      destruct (SE b v) as [Eb|Eb].
      2:{ rewrite F. split; [auto|]. intros [H|[H|[]]]; [exact H|congruence]. }
      subst a b. split; [intros [= <-]; right; left; reflexivity|]. intros [H|[[= <-]|[]]]; [|reflexivity]. exfalso.
      rewrite E, map_app in ND. cbn [map fst] in ND. apply NoDup_remove_2 in ND. apply ND. apply in_or_app. left. apply in_map_iff. exists (ekey u v, (u, v, x)). auto.
    - split; [exact R0|]. split; [exact R0'|]. intros u v c. rewrite D0. split; [discriminate|intros []].
    - intros st (R1 & R2 & F). split; [exact R1|]. split; [exact R2|]. intros u v c. rewrite F, HW. split.
      + intros (a & b & z & _ & [= -> -> ->] & H). exact H.
      + intros H. exists u, v, c. auto.
  Qed.
  Lemma diag_ok st0 : rows (fst st0) -> rows (snd st0) ->
    wp (forM V (fun v '(dist, next_vertex) =>
      dist <- set2 dist v v (Some 0) ;;
      next_vertex <- set2 next_vertex v v (Some v) ;;
      Ret (dist, next_vertex)) st0)
      (fun st => rows (fst st) /\ rows (snd st) /\ forall i j, dist2 (fst st) i j = if String.eqb i j && mem i V then Some 0 else dist2 (fst st0) i j).
  Proof.
    intros R0 R0'. eapply wp_mono; [apply (wp_forM _ _ V _ (fun pre (st : D * N) => rows (fst st) /\ rows (snd st) /\ forall i j, dist2 (fst st) i j = if String.eqb i j && mem i pre then Some 0 else dist2 (fst st0) i j))|].
    - intros pre v post [d n] E (R1 & R2 & F). cbn [fst snd] in *. assert (Hv : In v V) by (rewrite E; apply in_or_app; right; left; reflexivity).
      destruct (set2_dist d v v (Some 0) R1 Hv) as (d' & -> & R1' & F1). cbn [bind].
      destruct (set2_ok n v v (Some v) R2 Hv) as (n' & -> & R2' & _). cbn [bind wp fst snd]. split; [exact R1'|]. split; [exact R2'|].
      intros i j. rewrite F1, F, mem_app, mem_one. destruct (SE i v) as [Ei|Ei], (SE j v) as [Ej|Ej], (SE i j) as [Eij|Eij]; cbn [andb]; rewrite ?orb_true_r, ?orb_false_r; try reflexivity; congruence.
    - split; [exact R0|]. split; [exact R0'|]. intros i j. rewrite andb_false_r. reflexivity.
    - intros st H. exact H.
  Qed.

  Lemma floyd_main : exists dist nxt, floyd_warshall g = Ret (dist, nxt) /\ map fst dist = V /\ map fst nxt = V /\
    forall i j, In i V -> In j V -> match dist2 dist i j with Some d => least_cost G i j d | None => forall n w, ~ cwalk G i n w j end.
  Proof.
    assert (X : wp (floyd_warshall g) (fun st => rows (fst st) /\ rows (snd st) /\ fwi V (fst st))).
    { assert (ND : NoDup V) by apply HG. unfold floyd_warshall. rewrite verts. apply wp_bind.
      eapply wp_mono; [apply edges_ok|].
      - cbn [fst]. unfold rows. rewrite fold_rows; [reflexivity|exact ND].
      - cbn [snd]. unfold rows. rewrite fold_rows; [reflexivity|exact ND].
      - intros i j. cbn [fst]. unfold dist2. match goal with |- context [sdget ?t i] => destruct (sdget t i) as [r|] eqn:E end; [|reflexivity]. apply fold_empty in E as [->|E]; [reflexivity|discriminate].
      - intros [d1 n1] (R1 & R2 & F1). cbn [fst snd] in *. apply wp_bind. eapply wp_mono; [apply (diag_ok (d1, n1) R1 R2)|]. intros [d2 n2] (R1' & R2' & F2). cbn [fst snd] in *.
        assert (I0 : fwi [] d2).
        { assert (S : sound d2).
          { intros i j x Hi Hj. rewrite F2. destruct (SE i j) as [->|Hij]; cbn [andb].
            - apply mem_true in Hi. rewrite Hi. intros [= <-]. exists O. constructor.
            - intros E. exists 1%nat. apply F1 in E. replace x with (0 + x) by lia. apply cwalk_snoc with i; [constructor|exact E]. }
          constructor.
          - exact S.
          - intros v Hv. rewrite F2, String.eqb_refl. apply mem_true in Hv. rewrite Hv. reflexivity.
          - intros u v c Hc b [= <-]. rewrite F2. destruct (String.eqb u v && mem u V) eqn:E.
            + apply andb_true_iff in E as [E _]. apply String.eqb_eq in E. subst v. exists 0. split; [reflexivity|]. apply (HN u 0%nat c). replace c with (0 + c) by lia. apply cwalk_snoc with u; [constructor|exact Hc].
            + exists c. split; [apply F1; exact Hc|lia].
          - intros k i j []. }
        change (wp (forM V (fun k st => forM V (fun i st => forM V (fw_body k i) st) st) (d2, n2)) (fun st => rows (fst st) /\ rows (snd st) /\ fwi V (fst st))).
        apply (wp_forM _ _ V (fun k st => forM V (fun i st => forM V (fw_body k i) st) st) (fun pre (st : D * N) => rows (fst st) /\ rows (snd st) /\ fwi pre (fst st))); [|auto].
        intros pre k post st E (Q1 & Q2 & F). assert (Hk : In k V) by (rewrite E; apply in_or_app; right; left; reflexivity).
        eapply wp_mono; [apply (round_ok k st Hk (f_diag _ _ F k Hk) Q1 Q2)|]. intros st' (Q1' & Q2' & F'). split; [exact Q1'|]. split; [exact Q2'|].
        apply (round_tri pre (fst st)); [|exact F|exact F']. intros x [<-|Hx]; [exact Hk|]. rewrite E. apply in_or_app. left. exact Hx. }
    apply wp_ex in X as ([dist nxt] & E & R1 & R2 & F). cbn [fst snd] in *. exists dist, nxt. split; [exact E|]. split; [exact R1|]. split; [exact R2|].
    intros i j Hi Hj.
    assert (Low : forall n w v, cwalk G i n w v -> ole (dist2 dist i v) (Some w)).
    { intros n w v H. induction H as [|n w u v c H IH Hc].
      - rewrite (f_diag _ _ F i Hi). apply ole_refl.
      - destruct (fw_dom _ _ _ Hc) as [Hu Hv]. eapply ole_trans; [apply (f_tri _ _ F u i v Hu Hi Hv)|]. change (Some (w + c)) with (oadd (Some w) (Some c)). apply ole_add; [exact IH|apply (f_edge _ _ F u v c Hc)]. }
    destruct (dist2 dist i j) as [d|] eqn:Ed.
    - split; [apply (f_sound _ _ F i j d Hi Hj Ed)|]. intros n w H. destruct (Low n w j H w eq_refl) as (a & Ea & La). congruence.
    - intros n w H. destruct (Low n w j H w eq_refl) as (a & Ea & La). congruence.
  Qed.
End FW.
