(** Proofs about breadth_first_search_parallel (C75). *)
From Coq Require Import Strings.String.
From Verif Require Import Base DsfModel GraphModel GraphSpec GraphDict GraphProofs SearchGraphModel SccModel BfsParModel.
Import List.

Lemma set_add_in s x y : In y (set_add s x) <-> In y s \/ y = x.
Proof. unfold set_add. destruct (mem_spec x s) as [I|I]; [split; [auto|intros [A | ->]; assumption]|]. rewrite in_app_iff. cbn. split; intros [A|A]; auto. destruct A as [A|[]]; auto. Qed.
Lemma walk_app (G : dg) (a b : string) n : walk G a n b -> forall m c, walk G b m c -> walk G a (n + m) c.
Proof. intros K m c K'. induction K' as [|m u v K' IH Hc]; [rewrite Nat.add_0_r; exact K|]. rewrite Nat.add_succ_r. econstructor; eassumption. Qed.

Section P.
  Context (g : gview) (G : dg) (HG : represents g G) (s : string) (Hs : In s (fst G)) (order : list string -> list string) (HO : forall l, Permutation (order l) l).
  Notation V := (fst G).

  Definition names_only (vis : list vkey) : Prop := forall k, In k vis -> exists n, k = VName n.
  Lemma vget_node vis x : names_only vis -> vget vis (VNode x) = false.
  Proof. intros H. unfold vget. destruct (existsb _ vis) eqn:E; [|reflexivity]. apply existsb_exists in E as (k & I & E). destruct (H k I) as (n & ->). discriminate. Qed.
  Lemma names_cons vis x : names_only vis -> names_only (VName x :: vis).
  Proof. intros H k [<-|I]; eauto. Qed.
  Lemma edge_in u v : is_edge G u v -> In u V /\ In v V /\ v <> EmptyString.
  Proof.
    intros E. destruct HG as (_ & _ & O & _ & D & _). destruct (D u v E) as (A & B). repeat split; auto. rewrite Forall_forall in O. apply (O v B).
  Qed.
  Definition call_of (u : string) (c n : string) : Prop := c = u /\ (is_edge G u n \/ (n = EmptyString /\ forall v, ~ is_edge G u v)).

  Lemma job_ok u nl vis calls : In u V -> names_only vis ->
    wp (generate_layer g yes u nl vis calls) (fun '(nl', vis', calls', status) => status = true /\ names_only vis' /\ (forall x, In x nl' <-> In x nl \/ is_edge G u x) /\
       (forall c n, In (c, n) calls' <-> In (c, n) calls \/ call_of u c n)).
  Proof.
    intros Hu Hv. unfold generate_layer. destruct HG as (_ & _ & _ & _ & _ & NB). destruct (NB u Hu) as (l & El & Nl & Il). rewrite El. cbn [bind]. destruct l as [|a l].
    - cbn [wp]. unfold yes. split; [reflexivity|]. split; [exact Hv|]. split; [intros x; rewrite <- Il; cbn; tauto|]. intros c n. rewrite in_app_iff. cbn [In]. split; (intros [A|A]; [auto|right]).
      + destruct A as [A|[]]. injection A as <- <-. split; [reflexivity|]. right. split; [reflexivity|]. intros v X. apply Il in X. destruct X.
      + left. destruct A as (-> & [X|(-> & _)]); [apply Il in X; destruct X|reflexivity].
    - eapply wp_mono; [apply (wp_forM _ _ (a :: l) _ (fun pre '(nl', vis', calls', status) => status = true /\ names_only vis' /\ (forall x, In x nl' <-> In x nl \/ In x pre) /\ (forall c n, In (c, n) calls' <-> In (c, n) calls \/ (c = u /\ In n pre))))|].
      + intros pre b post [[[nl' vis'] calls'] status] E (-> & H1 & H2 & H3). rewrite (vget_node vis' b H1). cbn [negb wp]. unfold yes. split; [reflexivity|]. split; [apply names_cons; exact H1|]. split.
        * intros x. rewrite set_add_in, H2, in_app_iff. cbn. intuition congruence.
        * intros c n. rewrite in_app_iff, H3, in_app_iff. cbn. split; [intros [[A|A]|[A|[]]]; [auto|tauto|injection A as <- <-; auto]|]. intros [A|(-> & [A|[<-|[]]])]; auto.
      + split; [reflexivity|]. split; [exact Hv|]. cbn. split; intros; tauto.
      + intros [[[nl' vis'] calls'] status] (-> & H1 & H2 & H3). split; [reflexivity|]. split; [exact H1|]. split; [intros x; rewrite H2, Il; reflexivity|]. intros c n. rewrite H3, Il. unfold call_of. split; (intros [A|A]; [auto|right]); [tauto|].
        destruct A as (-> & [A|(_ & A)]); [auto|]. exfalso. apply (A a). apply Il. left. reflexivity.
  Qed.

  Lemma layer_ok layer vis calls : (forall x, In x layer -> In x V) -> names_only vis ->
    wp (par_layer order g yes layer vis calls) (fun '(nl, vis', calls', status) => status = true /\ names_only vis' /\ (forall x, In x nl <-> exists u, In u layer /\ is_edge G u x) /\
       (forall c n, In (c, n) calls' <-> In (c, n) calls \/ (In c layer /\ call_of c c n))).
  Proof.
    intros HL Hv. unfold par_layer. assert (P := HO layer).
    eapply wp_mono; [apply (wp_forM _ _ (order layer) _ (fun pre '(nl, vis', calls', status) => status = true /\ names_only vis' /\ (forall x, In x nl <-> exists u, In u pre /\ is_edge G u x) /\
       (forall c n, In (c, n) calls' <-> In (c, n) calls \/ (In c pre /\ call_of c c n))))|].
    - intros pre b post [[[nl vis'] calls'] status] E (-> & H1 & H2 & H3). assert (Hb : In b V). { apply HL. rewrite <- P, E. apply in_elt. }
      eapply wp_mono; [apply (job_ok b nl vis' calls' Hb H1)|]. intros [[[nl2 vis2] calls2] st2] (-> & K1 & K2 & K3). split; [reflexivity|]. split; [exact K1|]. split.
      + intros x. rewrite K2, H2. split.
        * intros [(u & A & B)|A]; [exists u|exists b]; rewrite in_app_iff; cbn; auto.
        * intros (u & A & B). apply in_app_iff in A as [A|[<-|[]]]; [left; eauto|auto].
      + intros c n. rewrite K3, H3, in_app_iff. cbn [In]. split.
        * intros [[A|A]|A]; [auto|tauto|]. right. assert (c = b) by apply A. subst c. auto.
        * intros [A|([A|[<-|[]]] & B)]; auto.
    - split; [reflexivity|]. split; [exact Hv|]. split; [intros x; split; [intros []|intros (u & [] & _)]|]. intros c n. split; [auto|intros [A|([] & _)]; exact A].
    - intros [[[nl vis'] calls'] status] (-> & H1 & H2 & H3). split; [reflexivity|]. split; [exact H1|]. split.
      + intros x. rewrite H2. split; intros (u & A & B); exists u; (split; [|exact B]); [rewrite <- P|rewrite P]; exact A.
      + intros c n. rewrite H3, P. reflexivity.
  Qed.

  Definition Lay (n : nat) (st : list string * list vkey * list (string * string)) : Prop :=
    let '(layer, vis, calls) := st in names_only vis /\ (forall x, In x layer <-> walk G s n x) /\ (forall c v, In (c, v) calls <-> exists m, (m < n)%nat /\ walk G s m c /\ call_of c c v).
  Lemma walk_in n x : walk G s n x -> In x V.
  Proof. intros K. inversion K; subst; [exact Hs|]. apply (edge_in u x). assumption. Qed.

  Definition body := (fun '(layer, visited, calls) =>
    match layer with
    | [] => Ret (Break calls)
    | _ =>
      ' (next_layer, visited, calls, status) <- par_layer order g yes layer visited calls ;;
      if negb status then Ret (Break calls) else Ret (Next (next_layer, visited, calls))
    end : res (ctl (list string * list vkey * list (string * string)) (list (string * string)))).
  Lemma step_ok n st : Lay n st -> wp (body st) (fun r => match r with Break calls => calls = snd st /\ (forall x, ~ walk G s n x) | Next st' => (exists x, walk G s n x) /\ Lay (S n) st' end).
  Proof.
    destruct st as [[layer vis] calls]. intros (H1 & H2 & H3). unfold body. destruct layer as [|a l] eqn:EL; [cbn; split; [reflexivity|]; intros x X; apply H2 in X; destruct X|]. rewrite <- EL in *.
    apply wp_bind. eapply wp_mono; [apply (layer_ok layer vis calls); [intros x X; apply H2 in X; eapply walk_in; exact X|exact H1]|]. intros [[[nl vis'] calls'] status] (-> & K1 & K2 & K3). cbn [negb wp].
    split; [exists a; apply H2; rewrite EL; left; reflexivity|]. split; [exact K1|]. split.
    - intros x. rewrite K2. split; [intros (u & A & B); apply H2 in A; econstructor; eassumption|]. intros X. inversion X; subst. exists u. split; [apply H2; assumption|assumption].
    - intros c v. rewrite K3, H3. split.
      + intros [(m & A & B)|(A & B)]; [exists m; split; [lia|exact B]|]. exists n. split; [lia|]. split; [apply H2; exact A|exact B].
      + intros (m & A & B & C). destruct (Nat.eq_dec m n) as [->|N]; [right; split; [apply H2; exact B|exact C]|]. left. exists m. split; [lia|auto].
  Qed.
  Lemma start_ok : Lay 0 ([s], [VName s], []).
  Proof. split; [intros k [<-|[]]; eauto|]. split; [intros x; cbn; split; [intros [<-|[]]; constructor|intros X; inversion X; auto]|]. intros c v. split; [intros []|]. intros (m & A & _). lia. Qed.

  (** a walk of every length: the loop never ends *)
  Lemma forever : (forall n, exists x, walk G s n x) -> forall fuel, bfs_parallel fuel order g s yes = OutOfFuel.
  Proof.
    intros H fuel. unfold bfs_parallel. change (while_loop fuel body ([s], [VName s], []) = OutOfFuel). assert (K := start_ok). revert K. generalize ([s], [VName s], @nil (string * string)). generalize 0%nat.
    induction fuel as [|f IH]; intros n st K; [reflexivity|]. cbn [while_loop]. assert (X := step_ok n st K). apply wp_ex in X as ([st'|c] & E & X); rewrite E.
    - apply (IH (S n)). apply X.
    - destruct (H n) as (x & Y). exfalso. apply (proj2 X x Y).
  Qed.
  Lemma no_longer n : (forall x, ~ walk G s n x) -> forall m c, walk G s m c -> (m < n)%nat.
  Proof. intros X m c K. destruct (le_lt_dec n m) as [L|L]; [|exact L]. exfalso. revert c K. induction L as [|m L IH]; intros c K; [apply (X c K)|]. inversion K; subst. eapply IH; eassumption. Qed.
  Lemma ends N : (forall x, ~ walk G s N x) -> forall fuel, (N < fuel)%nat ->
    exists calls, bfs_parallel fuel order g s yes = Ret calls /\ forall c v, In (c, v) calls <-> exists m, walk G s m c /\ call_of c c v.
  Proof.
    intros H fuel Hf. apply wp_ex. unfold bfs_parallel. fold body. assert (GEN : forall fuel n st, Lay n st -> (n <= N)%nat -> (N < n + fuel)%nat -> wp (while_loop fuel body st) (fun calls => forall c v, In (c, v) calls <-> exists m, walk G s m c /\ call_of c c v)).
    { clear fuel Hf. induction fuel as [|f IH]; intros n st K L1 L2; [lia|]. cbn [while_loop]. assert (X := step_ok n st K). apply wp_ex in X as ([st'|c] & E & X); rewrite E.
        + destruct X as ((x & W) & X). apply (no_longer N H) in W. apply (IH (S n)); [exact X|lia|lia].
        + cbn [wp]. destruct X as (-> & X). destruct st as [[layer vis] calls]. intros c v. cbn [snd]. rewrite (proj2 (proj2 K)). split; [intros (m & _ & Y); eauto|]. intros (m & Y & Z). exists m. split; [|auto]. apply (no_longer n X m c Y). }
    apply (GEN fuel 0%nat); [apply start_ok|lia|lia].
  Qed.

  (** the vertices of a walk, in order *)
  Lemma trail n v : walk G s n v -> exists l, length l = S n /\ (forall x, In x l -> In x V) /\ nth n l s = v /\ (forall i, (i <= n)%nat -> walk G s i (nth i l s)) /\
    forall i j, (i <= j)%nat -> (j <= n)%nat -> walk G (nth i l s) (j - i) (nth j l s).
  Proof.
    induction 1 as [|n u v K (l & L & IV & E & P & Q) Hc].
    - exists [s]. split; [reflexivity|]. split; [intros x [<-|[]]; exact Hs|]. split; [reflexivity|]. split; [intros i Hi; replace i with 0%nat by lia; constructor|]. intros i j Hi Hj. replace j with 0%nat by lia. replace i with 0%nat by lia. constructor.
    - exists (l ++ [v]). assert (N1 : forall i, (i <= n)%nat -> nth i (l ++ [v]) s = nth i l s) by (intros i Hi; apply app_nth1; lia). assert (N2 : nth (S n) (l ++ [v]) s = v) by (rewrite app_nth2, L, Nat.sub_diag by lia; reflexivity).
      split; [rewrite app_length, L; cbn; lia|]. split; [intros x Hx; apply in_app_iff in Hx as [Hx|[<-|[]]]; [auto|apply (edge_in u v Hc)]|]. split; [exact N2|].
      assert (KV : walk G s (S n) v) by (econstructor; eassumption). split.
      + intros i Hi. destruct (Nat.eq_dec i (S n)) as [->|N]; [rewrite N2; exact KV|]. rewrite N1 by lia. apply P. lia.
      + intros i j Hi Hj. destruct (Nat.eq_dec j (S n)) as [->|N]; [|rewrite !N1 by lia; apply Q; lia]. rewrite N2. destruct (Nat.eq_dec i (S n)) as [->|N']; [rewrite N2, Nat.sub_diag; constructor|]. rewrite N1 by lia.
        replace (S n - i)%nat with (S (n - i)) by lia. apply (walk_snoc _ _ _ u); [|exact Hc]. rewrite <- E. apply Q; lia.
  Qed.
  Lemma long_cycle v : walk G s (length V) v -> exists x n, reachable G s x /\ walk G x (S n) x.
  Proof.
    intros K. destruct (trail _ _ K) as (l & L & IV & _ & P & Q). assert (ND : ~ NoDup l). { intros N. assert (X := NoDup_incl_length N (l' := V) IV). lia. }
    assert (EX : exists i j, (i < j)%nat /\ (j < length l)%nat /\ nth i l s = nth j l s).
    { clear - ND. induction l as [|a l IH]; [exfalso; apply ND; constructor|]. destruct (in_dec SD a l) as [I|I].
      - apply (In_nth l a s) in I as (k & Lk & Ek). exists 0%nat, (S k). cbn. repeat split; [lia|lia|auto].
      - destruct IH as (i & j & A & B & C); [intros N; apply ND; constructor; assumption|]. exists (S i), (S j). cbn. repeat split; [lia|lia|exact C]. }
    destruct EX as (i & j & A & B & C). rewrite L in B. exists (nth i l s), (j - i - 1)%nat. split; [exists i; apply P; lia|]. replace (S (j - i - 1)) with (j - i)%nat by lia. rewrite C at 2. apply Q; lia.
  Qed.
  Lemma cycle_forever x n : reachable G s x -> walk G x (S n) x -> forall k, exists y, walk G s k y.
  Proof.
    intros (m & K) C k. assert (X : forall r, exists q, (r <= q)%nat /\ walk G s q x). { induction r as [|r (q & L & W)]; [exists m; split; [lia|exact K]|]. exists (q + S n)%nat. split; [lia|]. eapply walk_app; eassumption. }
    destruct (X k) as (q & L & W). clear - L W. revert x W. induction L as [|q L IH]; intros x W; [eauto|]. inversion W; subst. eapply IH; eassumption.
  Qed.
End P.
