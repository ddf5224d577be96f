(** Forests, and the greedy choice (C81). *)
From Coq Require Import Strings.String Strings.Ascii Relations.
From Verif Require Import Base DsfModel DsfSpec GraphModel GraphSpec GraphDict GraphProofs MstSpec.
Import List.
Notation pairs := (list (string * string)).

Lemma conn_mono (E E' : pairs) x y : incl E E' -> connected E x y -> connected E' x y.
Proof. intros I H. induction H; [apply rst_step, I; assumption|apply rst_refl|apply rst_sym; assumption|eapply rst_trans; eassumption]. Qed.
Lemma conn_sub (E E' : pairs) : (forall a b, In (a, b) E -> connected E' a b) -> forall x y, connected E x y -> connected E' x y.
Proof. intros I x y H. induction H; [apply I; assumption|apply rst_refl|apply rst_sym; assumption|eapply rst_trans; eassumption]. Qed.

(** a label for every component; later edges first *)
Fixpoint labels (E : pairs) : string -> string :=
  match E with [] => fun x => x | (u, v) :: E' => let l := labels E' in fun x => if String.eqb (l x) (l u) then l v else l x end.
Lemma lab_conn E : forall x, connected E x (labels E x).
Proof.
  induction E as [|[u v] E IH]; intros x; [apply rst_refl|]. cbn [labels]. assert (M : forall a b, connected E a b -> connected ((u, v) :: E) a b) by (intros a b; apply conn_mono; intros z Hz; right; exact Hz).
  destruct (SE (labels E x) (labels E u)) as [E1|_]; [|apply M, IH].
  apply rst_trans with (labels E x); [apply M, IH|]. rewrite E1. apply rst_trans with u; [apply rst_sym, M, IH|]. apply rst_trans with v; [apply rst_step; left; reflexivity|apply M, IH].
Qed.
Lemma lab_eq E x y : labels E x = labels E y <-> connected E x y.
Proof.
  split.
  - intros H. apply rst_trans with (labels E x); [apply lab_conn|]. rewrite H. apply rst_sym, lab_conn.
  - revert x y. induction E as [|[u v] E IH]; intros x y H.
    + cbn [labels]. induction H as [a b []|a|a b _ IH|a b c _ I1 _ I2]; congruence.
    + induction H as [a b H|a|a b _ I1|a b c _ I1 _ I2]; [|reflexivity|congruence|congruence]. cbn [labels]. destruct H as [[= <- <-]|H].
      * rewrite String.eqb_refl. destruct (String.eqb (labels E v) (labels E u)); reflexivity.
      * rewrite (IH a b); [reflexivity|]. apply rst_step. exact H.
Qed.
Definition ncomp (V : list string) (E : pairs) : nat := length (nodup string_dec (map (labels E) V)).
Lemma ncomp_same V u v E : connected E u v -> ncomp V ((u, v) :: E) = ncomp V E.
Proof.
  intros H. unfold ncomp. do 2 f_equal. apply map_ext. intros x. cbn [labels]. apply lab_eq in H. destruct (SE (labels E x) (labels E u)) as [->|]; congruence.
Qed.
Lemma ncomp_join V u v E : In u V -> In v V -> ~ connected E u v -> S (ncomp V ((u, v) :: E)) = ncomp V E.
Proof.
  intros Hu Hv H. assert (N : labels E u <> labels E v) by (intros X; apply H, lab_eq; exact X). unfold ncomp.
  set (A := nodup string_dec (map (labels E) V)). set (B := nodup string_dec (map (labels ((u, v) :: E)) V)).
  assert (IA : forall a, In a A <-> exists x, In x V /\ labels E x = a). { intros a. unfold A. rewrite nodup_In, in_map_iff. split; intros (x & X & Y); eauto. }
  assert (IB : forall a, In a B <-> exists x, In x V /\ (if String.eqb (labels E x) (labels E u) then labels E v else labels E x) = a).
  { intros a. unfold B. rewrite nodup_In, in_map_iff. cbn [labels]. split; intros (x & X & Y); eauto. }
  assert (P : Permutation A (labels E u :: B)).
  { apply NoDup_Permutation; [apply NoDup_nodup|constructor; [|apply NoDup_nodup]|].
    - intros X. apply IB in X as (x & _ & X). destruct (SE (labels E x) (labels E u)); congruence.
    - intros a. cbn [In]. rewrite IA, IB. split.
      + intros (x & Hx & <-). destruct (SE (labels E x) (labels E u)) as [E1|E1]; [left; congruence|]. right. exists x. split; [exact Hx|]. destruct (SE (labels E x) (labels E u)); congruence.
      + intros [<-|(x & Hx & X)]; [eauto|]. destruct (SE (labels E x) (labels E u)); [exists v|exists x]; auto. }
  apply Permutation_length in P. cbn [length] in P. lia.
Qed.
Definition within (V : list string) (E : pairs) : Prop := forall a b, In (a, b) E -> In a V /\ In b V.
Lemma ncomp_ge V E : NoDup V -> within V E -> (length V <= ncomp V E + length E)%nat.
Proof.
  intros N. induction E as [|[u v] E IH]; intros H.
  - unfold ncomp. cbn [labels length]. rewrite map_id, nodup_fixed_point by exact N. lia.
  - destruct (H u v (or_introl eq_refl)) as [Hu Hv]. assert (I := IH (fun a b X => H a b (or_intror X))). cbn [length].
    destruct (SD (labels E u) (labels E v)) as [X|X].
    + rewrite ncomp_same by (apply lab_eq; exact X). lia.
    + assert (Y := ncomp_join V u v E Hu Hv). rewrite <- lab_eq in Y. specialize (Y X). lia.
Qed.
Fixpoint sf (E : pairs) : Prop := match E with [] => True | (u, v) :: E' => ~ connected E' u v /\ sf E' end.
Lemma ncomp_forest V E : NoDup V -> within V E -> sf E -> (ncomp V E + length E = length V)%nat.
Proof.
  intros N. induction E as [|[u v] E IH]; intros H S.
  - unfold ncomp. cbn [labels length]. rewrite map_id, nodup_fixed_point by exact N. lia.
  - destruct (H u v (or_introl eq_refl)) as [Hu Hv]. destruct S as [S1 S2]. assert (I := IH (fun a b X => H a b (or_intror X)) S2). cbn [length].
    assert (Y := ncomp_join V u v E Hu Hv S1). lia.
Qed.
Lemma ncomp_mono V (E E' : pairs) : (forall x y, connected E x y -> connected E' x y) -> (ncomp V E' <= ncomp V E)%nat.
Proof.
  intros H. unfold ncomp. rewrite <- (map_length (labels E') (nodup string_dec (map (labels E) V))). apply NoDup_incl_length; [apply NoDup_nodup|].
  intros a Ha. apply nodup_In, in_map_iff in Ha as (x & <- & Hx). apply in_map_iff. exists (labels E x). split.
  - symmetry. apply lab_eq, H, lab_conn.
  - apply nodup_In, in_map. exact Hx.
Qed.
Lemma forest_le V (F T : pairs) : NoDup V -> within V F -> within V T -> sf F -> (forall x y, connected F x y -> connected T x y) -> (length F <= length T)%nat.
Proof. intros N HF HT S H. assert (X := ncomp_forest V F N HF S). assert (Y := ncomp_ge V T N HT). assert (Z := ncomp_mono V F T H). lia. Qed.

(** ** priced edges *)
Notation pedges := (list (string * string * Z)).
Lemma pe_dec (e f : string * string * Z) : {e = f} + {e <> f}.
Proof. decide equality; [apply Z.eq_dec|]. decide equality; apply string_dec. Qed.
Definition memE (F : pedges) (e : string * string * Z) : bool := if in_dec pe_dec e F then true else false.
Lemma memE_spec F e : memE F e = true <-> In e F.
Proof. unfold memE. destruct (in_dec pe_dec e F); split; intros; try discriminate; tauto. Qed.
Lemma forest_nodup F : forest F -> NoDup F.
Proof.
  induction F as [|[[u v] c] F IH]; intros H; [constructor|]. constructor.
  - intros X. apply in_split in X as (F1 & F2 & ->). apply (H [] u v c (F1 ++ (u, v, c) :: F2) eq_refl). apply rst_step. cbn [app]. rewrite map_app. apply in_or_app. right. left. reflexivity.
  - apply IH. intros T1 a b d T2 ->. intros X. apply (H ((u, v, c) :: T1) a b d T2 eq_refl). eapply conn_mono; [|exact X]. intros z Hz. right. exact Hz.
Qed.
Lemma forest_sf F B : forest F -> NoDup B -> incl B F -> sf (map fst B).
Proof.
  intros HF. induction B as [|[[u v] c] B IH]; intros N I; [exact Logic.I|]. inversion N; subst. cbn [map fst sf]. split.
  - intros X. assert (HI : In (u, v, c) F) by (apply I; left; reflexivity). apply in_split in HI as (F1 & F2 & E). apply (HF F1 u v c F2 E). unfold linked. eapply conn_mono; [|exact X].
    intros p Hp. apply in_map_iff in Hp as (e & <- & He). apply in_map. assert (He2 : In e F) by (apply I; right; exact He). rewrite E in He2. apply in_app_or in He2 as [He2|[<-|He2]]; [apply in_or_app; left; exact He2|contradiction|apply in_or_app; right; exact He2].
  - apply IH; [assumption|]. intros e He. apply I. right. exact He.
Qed.
Lemma sf_forest V (F : pedges) : NoDup V -> within V (map fst F) -> sf (map fst F) -> forest F.
Proof.
  intros N W S T1 u v c T2 -> X. assert (A := ncomp_forest V _ N W S).
  assert (B : (ncomp V (map fst (T1 ++ T2)) <= ncomp V (map fst (T1 ++ (u, v, c) :: T2)))%nat).
  { apply ncomp_mono. apply conn_sub. intros a b H. rewrite map_app in H. apply in_app_or in H as [H|[[= <- <-]|H]].
    - apply rst_step. rewrite map_app. apply in_or_app. left. exact H.
    - exact X.
    - apply rst_step. rewrite map_app. apply in_or_app. right. exact H. }
  assert (C : (length V <= ncomp V (map fst (T1 ++ T2)) + length (map fst (T1 ++ T2)))%nat).
  { apply ncomp_ge; [exact N|]. intros a b H. apply W. rewrite map_app in *. apply in_app_or in H as [H|H]; apply in_or_app; [left|right; right]; exact H. }
  rewrite !map_length, !app_length in *. cbn [length] in *. lia.
Qed.
Lemma forest_perm V (F F' : pedges) : NoDup V -> within V (map fst F) -> Permutation F F' -> forest F -> forest F'.
Proof.
  intros N W P H. apply (sf_forest V); [exact N| |].
  - intros a b X. apply W. eapply Permutation_in; [apply Permutation_map, Permutation_sym, P|exact X].
  - apply (forest_sf F); [exact H|eapply Permutation_NoDup; [exact P|apply forest_nodup; exact H]|]. intros e He. eapply Permutation_in; [apply Permutation_sym, P|exact He].
Qed.
Lemma total_app A B : total (A ++ B) = total A + total B.
Proof. unfold total. induction A as [|a A IH]; cbn [app fold_right]; [reflexivity|]. rewrite IH. lia. Qed.
Lemma total_perm A B : Permutation A B -> total A = total B.
Proof. induction 1; cbn [total fold_right] in *; unfold total in *; lia. Qed.

(** ** the greedy choice over a list of edges sorted by cost *)
Section Greedy.
  Context (V : list string) (NV : NoDup V) (S : pedges) (WS : within V (map fst S)).
  Record greedy (P T : pedges) : Prop := {
    gr_incl : incl T P;
    gr_conn : forall x y, linked P x y -> linked T x y;
    gr_sf : sf (map fst (rev T));
    gr_cost : forall F M, forest F -> (forall e, In e P -> snd e <= M) -> (length (filter (memE F) P) <= length T)%nat /\
                total T <= total (filter (memE F) P) + (len T - len (filter (memE F) P)) * M }.
  Lemma greedy_nil : greedy [] [].
  Proof. constructor; [intros x []|auto|exact I|]. intros F M _ _. cbn. split; lia. Qed.
  Lemma within_sub P : incl P S -> within V (map fst P).
  Proof. intros H a b X. apply WS. apply in_map_iff in X as (e & E & X). apply in_map_iff. exists e. auto. Qed.
  Lemma conn_rev (T : pedges) x y : connected (map fst (rev T)) x y <-> linked T x y.
  Proof. unfold linked. split; apply conn_mono; intros p; rewrite map_rev, <- in_rev; auto. Qed.
  Lemma greedy_step P T u v c : greedy P T -> NoDup (P ++ [(u, v, c)]) -> incl (P ++ [(u, v, c)]) S -> (forall e, In e P -> snd e <= c) ->
    (linked T u v -> greedy (P ++ [(u, v, c)]) T) /\ (~ linked T u v -> greedy (P ++ [(u, v, c)]) (T ++ [(u, v, c)])).
  Proof.
    intros G ND I Hc. assert (IP : incl P (P ++ [(u, v, c)])) by (intros e He; apply in_or_app; left; exact He).
    assert (Cost : forall T', T' = T \/ T' = T ++ [(u, v, c)] -> incl T' (P ++ [(u, v, c)]) -> (forall x y, linked (P ++ [(u, v, c)]) x y -> linked T' x y) -> forall F M, forest F -> (forall e, In e (P ++ [(u, v, c)]) -> snd e <= M) ->
       (length (filter (memE F) (P ++ [(u, v, c)])) <= length T')%nat /\ total T' <= total (filter (memE F) (P ++ [(u, v, c)])) + (len T' - len (filter (memE F) (P ++ [(u, v, c)]))) * M).
    { intros T' HT' IT HL F M HF HM. assert (LE : (length (filter (memE F) (P ++ [(u, v, c)])) <= length T')%nat).
      { set (B := filter (memE F) (P ++ [(u, v, c)])). rewrite <- (map_length fst B), <- (map_length fst T'). apply (forest_le V).
        - exact NV.
        - apply within_sub. intros e He. apply I. apply filter_In in He. apply He.
        - apply within_sub. intros e He. apply I, IT. exact He.
        - apply (forest_sf F); [exact HF|apply NoDup_filter; exact ND|]. intros e He. apply filter_In in He as [_ He]. apply memE_spec. exact He.
        - intros x y H. apply HL. eapply conn_mono; [|exact H]. intros p Hp. apply in_map_iff in Hp as (e & <- & He). apply in_map. apply filter_In in He. apply He. }
      split; [exact LE|]. destruct (gr_cost _ _ G F c HF Hc) as [L1 C1]. assert (HcM : c <= M) by (apply (HM (u, v, c)); apply in_or_app; right; left; reflexivity).
      rewrite filter_app in *. cbn [filter] in *. unfold len in *. rewrite !app_length in *. rewrite total_app.
      destruct HT' as [-> | ->].
      + destruct (memE F (u, v, c)); cbn [length total fold_right snd] in *; nia.
      + rewrite app_length in *. rewrite total_app. destruct (memE F (u, v, c)); cbn [length total fold_right snd] in *; nia. }
    split.
    - intros HL. assert (HLT : forall x y, linked (P ++ [(u, v, c)]) x y -> linked T x y).
      { apply conn_sub. intros a b H. rewrite map_app in H. apply in_app_or in H as [H|[[= <- <-]|[]]]; [apply (gr_conn _ _ G); apply rst_step; exact H|exact HL]. }
      constructor.
      + intros e He. apply IP, (gr_incl _ _ G). exact He.
      + exact HLT.
      + apply (gr_sf _ _ G).
      + apply Cost; [left; reflexivity| |exact HLT]. intros e He. apply IP, (gr_incl _ _ G). exact He.
    - intros HL. assert (HLT : forall x y, linked (P ++ [(u, v, c)]) x y -> linked (T ++ [(u, v, c)]) x y).
      { apply conn_sub. intros a b H. rewrite map_app in H. apply in_app_or in H as [H|[[= <- <-]|[]]].
        - unfold linked. eapply conn_mono; [|apply (gr_conn _ _ G); apply rst_step; exact H]. rewrite map_app. intros p Hp. apply in_or_app. left. exact Hp.
        - apply rst_step. rewrite map_app. apply in_or_app. right. left. reflexivity. }
      assert (IT : incl (T ++ [(u, v, c)]) (P ++ [(u, v, c)])) by (intros e He; apply in_app_or in He as [He|He]; apply in_or_app; [left; apply (gr_incl _ _ G); exact He|right; exact He]).
      constructor.
      + exact IT.
      + exact HLT.
      + rewrite rev_unit. cbn [map fst sf]. split; [|apply (gr_sf _ _ G)]. rewrite conn_rev. exact HL.
      + apply Cost; [right; reflexivity|exact IT|exact HLT].
  Qed.
  Lemma greedy_minimum E T : Permutation S E -> NoDup E -> greedy S T -> minimum_spanning_forest E T.
  Proof.
    intros P NE G. assert (NS : NoDup S) by (eapply Permutation_NoDup; [apply Permutation_sym; exact P|exact NE]).
    assert (IT : incl T S) by apply (gr_incl _ _ G).
    assert (IE : incl T E) by (intros e He; eapply Permutation_in; [exact P|apply IT; exact He]).
    assert (PM : forall x y, linked E x y -> linked S x y) by (intros x y; apply conn_mono; intros p Hp; eapply Permutation_in; [apply Permutation_map, Permutation_sym, P|exact Hp]).
    assert (FT : forest T).
    { apply (forest_perm V (rev T)); [exact NV| |apply Permutation_sym, Permutation_rev|].
      - apply within_sub. intros e He. apply IT. rewrite in_rev. exact He.
      - apply (sf_forest V); [exact NV| |apply (gr_sf _ _ G)]. apply within_sub. intros e He. apply IT. rewrite in_rev. exact He. }
    split.
    - split; [exact IE|]. split; [exact FT|]. intros x y. split; [intros H; apply (gr_conn _ _ G), PM, H|]. apply conn_mono. apply incl_map. exact IE.
    - intros F (FI & FF & FL).
      assert (FS : incl F S) by (intros e He; eapply Permutation_in; [apply Permutation_sym; exact P|apply FI; exact He]).
      assert (PF : Permutation (filter (memE F) S) F).
      { apply NoDup_Permutation; [apply NoDup_filter; exact NS|apply forest_nodup; exact FF|]. intros e. rewrite filter_In, memE_spec. split; [tauto|]. intros He. auto. }
      assert (LF : (length T <= length F)%nat).
      { rewrite <- (map_length fst T), <- (map_length fst F). apply (forest_le V); [exact NV|apply within_sub; exact IT|apply within_sub; exact FS|apply (forest_sf T); [exact FT|apply forest_nodup; exact FT|apply incl_refl]|].
        intros x y H. apply FL. eapply conn_mono; [|exact H]. apply incl_map. exact IE. }
      set (M := fold_right (fun e n => Z.max (snd e) n) 0 S).
      assert (HM : forall e, In e S -> snd e <= M). { unfold M. clear. induction S as [|a S' IH]; intros e []; cbn [fold_right]; [subst; lia|]. specialize (IH e H). lia. }
      destruct (gr_cost _ _ G F M FF HM) as [L C]. rewrite (total_perm _ _ PF) in C. rewrite (Permutation_length PF) in L. unfold len in C. rewrite (Permutation_length PF) in C.
      assert (length T = length F) by lia. replace (Z.of_nat (length T) - Z.of_nat (length F)) with 0 in C by lia. lia.
  Qed.
End Greedy.
