(** C101-C105: HTML links, the requests made by discovery of a URL, claimed identifiers
    (/repo/openid/consumer/discover.py, /repo/openid/yadis/discover.py). *)
From Coq Require Import Lia ZifyBool ZifyN ZifyNat Permutation.
From Verif Require Import Py PyFacts UrlLib UrlLibFacts UriNorm Prop_Uri Message Xri Etxrd Endpoint Discover Prop_Discover.
Open Scope N_scope.

Local Arguments u : simpl never.

(** ** C101: links of an HTML page *)
(** [w] is one of the words of [v] (HTML: a space separated list of tokens). *)
Definition space (c : N) : Prop := c = 32 \/ c = 9 \/ c = 10 \/ c = 13.
Definition word_of (w v : text) : Prop :=
  w <> [] /\ (forall c, In c w -> ~ space c) /\
  exists a b, v = a ++ w ++ b /\ (a = [] \/ exists a' c, a = a' ++ [c] /\ space c) /\ (b = [] \/ exists c b', b = c :: b' /\ space c).

Lemma xml_space_spec c : xml_space c = true <-> space c.
Proof. unfold xml_space, space. lia. Qed.
Lemma words_spaceless s : forall cur, (forall c, In c cur -> ~ space c) -> forall w, In w (words_from cur s) -> w <> [] /\ forall c, In c w -> ~ space c.
Proof.
  induction s as [|c s IH]; intros cur H w; cbn [words_from].
  - destruct cur as [|x cur]; [intros []|]. intros [<-|[]]. split.
    + intros E. apply (f_equal (@List.length _)) in E. rewrite rev_length in E. discriminate E.
    + intros d D. apply in_rev in D. auto.
  - destruct (xml_space c) eqn:E.
    + destruct cur as [|x cur]; [apply IH; intros d []|]. intros [<-|W].
      * split; [intros E'; apply (f_equal (@List.length _)) in E'; rewrite rev_length in E'; discriminate E'|]. intros d D. apply in_rev in D. auto.
      * revert W. apply IH. intros d [].
    + apply IH. intros d [<-|D]; auto. intros S. apply xml_space_spec in S. congruence.
Qed.
Lemma words_In s : forall cur w, (forall c, In c cur -> ~ space c) ->
  (In w (words_from cur s) <-> word_of w (rev cur ++ s)).
Proof.
  induction s as [|c s IH]; intros cur w H; cbn [words_from].
  - rewrite app_nil_r. assert (rev cur = [] \/ word_of (rev cur) (rev cur)) as K.
    { destruct (rev cur) as [|x r] eqn:E; [left; auto|right]. rewrite <- E. split; [congruence|]. split; [intros d D; apply in_rev in D; auto|].
      exists [], []. rewrite app_nil_r. auto. }
    assert (forall w, word_of w (rev cur) -> w = rev cur) as K2.
    { intros v (N & W & a & b & Eq & A & B). assert (forall d, In d (rev cur) -> ~ space d) as S by (intros d D; apply in_rev in D; auto).
      destruct A as [->|(a' & d & -> & D)]; [|exfalso; apply (S d); auto; rewrite Eq; apply in_app_iff; left; apply in_app_iff; right; left; auto].
      destruct B as [->|(d & b' & -> & D)]; [rewrite app_nil_r in Eq; auto|]. exfalso. apply (S d); auto. rewrite Eq. apply in_app_iff. right. apply in_app_iff. right. left. auto. }
    destruct cur as [|x cur]; [cbn; split; [intros []|]; intros W; specialize (K2 _ W); destruct W as (N & _); cbn in K2; congruence|].
    split.
    + intros [<-|[]]. destruct K as [K|K]; auto. cbn in K. destruct (rev cur); discriminate K.
    + intros W. left. symmetry. apply K2. auto.
  - destruct (xml_space c) eqn:E.
    + apply xml_space_spec in E.
      assert (forall w, word_of w (rev cur ++ c :: s) <-> (w = rev cur /\ cur <> []) \/ word_of w s) as K.
      { clear w. intros w. assert (forall d, In d (rev cur) -> ~ space d) as S by (intros d D; apply in_rev in D; auto). split.
        - intros (N & W & a & b & Eq & A & B). destruct A as [->|(a' & d & -> & D)].
          + left. cbn in Eq. assert (w = rev cur) as ->.
            { clear -Eq S W E B. revert w W Eq. generalize (rev cur) as l, S. clear S. induction l as [|x l IHl]; intros S w W Eq.
              - destruct w as [|y w]; auto. injection Eq as -> _. exfalso. apply (W y); [left; auto|auto].
              - destruct w as [|y w].
                + cbn in Eq. destruct B as [->|(d & b' & -> & D)]; [discriminate Eq|]. injection Eq as -> _. exfalso. apply (S d); [left; auto|auto].
                + injection Eq as -> Eq. f_equal. apply IHl; auto. intros d D. apply S. right. auto. intros d D. apply W. right. auto. }
            split; auto. intros ->. apply N. auto.
          + right. split; auto. split; auto.
            (* the separator before the word is at or after [c] *)
            rewrite <- app_assoc in Eq. cbn in Eq.
            assert (exists k, a' ++ [d] = rev cur ++ c :: k /\ s = k ++ w ++ b) as (k & Ek & ->).
            { clear -Eq S D E. revert a' Eq. generalize (rev cur) as l, S. clear S. induction l as [|x l IHl]; intros S a' Eq.
              - destruct a' as [|y a']; injection Eq as -> ->; [exists []; auto|]. exists (a' ++ [d]). split; auto. rewrite <- app_assoc. auto.
              - destruct a' as [|y a']; injection Eq as -> Eq; [exfalso; apply (S d); [left; auto|auto]|].
                destruct (IHl (fun d D => S d (or_intror D)) a' Eq) as (k & Ek & ->). exists k. split; auto. cbn. rewrite Ek. auto. }
            exists k, b. split; auto. split; auto. destruct k as [|y k] using rev_ind; [left; auto|right].
            exists k, y. split; auto. rewrite app_comm_cons, app_assoc in Ek. apply app_inj_tail in Ek as (_ & <-). auto.
        - intros [(-> & N)|(N & W & a & b & -> & A & B)].
          + split; [intros X; apply N; destruct cur; auto; cbn in X; destruct (rev cur); discriminate X|]. split; auto.
            exists [], (c :: s). split; auto. split; auto. right. exists c, s. auto.
          + split; auto. split; auto. exists (rev cur ++ c :: a), b. split; [rewrite <- app_assoc; auto|]. split; auto. right.
            destruct A as [->|(a' & d & -> & D)]; [exists (rev cur), c; auto|]. exists (rev cur ++ c :: a'), d. split; auto. rewrite <- app_assoc. auto. }
      rewrite K. destruct cur as [|x cur].
      * rewrite (IH [] w) by (intros d []). cbn. split; [auto|]. intros [(_ & N)|X]; auto. contradiction.
      * cbn [In]. rewrite (IH [] w) by (intros d []). cbn [rev app]. split; [intros [<-|X]; [left; split; [auto|discriminate]|auto]|].
        intros [(-> & _)|X]; auto.
    + rewrite (IH (c :: cur) w); [cbn [rev]; rewrite <- app_assoc; reflexivity|]. intros d [<-|D]; auto. intros S. apply xml_space_spec in S. congruence.
Qed.
Lemma contains_spec p s : contains s p = true <-> exists a b, s = a ++ p ++ b.
Proof.
  induction s as [|c s IH]; cbn [contains]; rewrite orb_true_iff.
  - split.
    + intros [H|H]; [|discriminate H]. apply startswith_spec in H as (b & ->). exists [], b. auto.
    + intros (a & b & E). left. apply startswith_spec. destruct a; [|discriminate E]. exists b. auto.
  - rewrite IH. split.
    + intros [H|(a & b & ->)]; [|exists (c :: a), b; auto]. apply startswith_spec in H as (b & E). exists [], b. auto.
    + intros (a & b & E). destruct a as [|x a]; [left; apply startswith_spec; exists b; auto|]. injection E as -> ->. right. exists a, b. auto.
Qed.
(** In a list of spaceless words joined by spaces, a spaceless word between spaces is one of them. *)
Lemma join_words ws w : (forall x, In x ws -> x <> [] /\ ~ In 32 x) -> w <> [] -> ~ In 32 w ->
  (contains (32 :: join [32] ws ++ [32]) (32 :: w ++ [32]) = true <-> In w ws).
Proof.
  intros H N Hw. rewrite contains_spec.
  assert (forall ws, (forall x, In x ws -> ~ In 32 x) -> (exists a b, 32 :: join [32] ws ++ [32] = a ++ (32 :: w ++ [32]) ++ b) -> In w ws) as K.
  { clear ws H. induction ws as [|x ws IH]; intros H (a & b & E).
    - exfalso. cbn [join app] in E. apply (f_equal (@List.length _)) in E. repeat (rewrite !app_length in E; cbn [List.length] in E).
      assert (List.length w <> 0%nat) by (destruct w; [congruence|discriminate]). lia.
    - assert (~ In 32 x) as Hx by (apply H; left; auto).
      assert (exists t, join [32] (x :: ws) ++ [32] = x ++ 32 :: t /\ (t = [] /\ ws = [] \/ 32 :: t = 32 :: join [32] ws ++ [32])) as (t & Et & Ht).
      { destruct ws as [|y ws]; [exists []; auto|]. exists (join [32] (y :: ws) ++ [32]). split; [cbn [join]; rewrite <- !app_assoc; reflexivity|auto]. }
      rewrite Et in E. clear Et.
      destruct a as [|y a].
      + left. injection E as E. cbn in E. rewrite <- app_assoc in E. cbn in E.
        assert (cut 32 (x ++ 32 :: t) = cut 32 (w ++ 32 :: b)) as C by (rewrite E; auto). rewrite !cut_app in C by auto. congruence.
      + injection E as <- E. right. 
        assert (exists a', 32 :: t = a' ++ (32 :: w ++ [32]) ++ b) as (a' & Ea).
        { clear -E Hx. revert a E. induction x as [|z x IHx]; intros a E; [exists a; auto|]. destruct a as [|y a].
          - exfalso. injection E as E1 E2. apply Hx. left. auto.
          - injection E as -> E. apply (IHx (fun i => Hx (or_intror i)) _ E). }
        destruct Ht as [(-> & ->)|Ht].
        * exfalso. apply (f_equal (@List.length _)) in Ea. repeat (rewrite !app_length in Ea; cbn [List.length] in Ea).
          assert (List.length w <> 0%nat) by (destruct w; [congruence|discriminate]). lia.
        * apply IH; [intros z Z; apply H; right; auto|]. exists a', b. rewrite <- Ht. auto. }
  split; [intros X; apply K; auto; intros x X1; apply H; auto|].
  clear K. intros I. clear H Hw N. induction ws as [|x ws IH]; [contradiction|]. destruct I as [->|I].
  - exists []. destruct ws as [|y ws]; [exists []; rewrite app_nil_r; auto|]. exists (join [32] (y :: ws) ++ [32]). cbn [join app]. rewrite <- !app_assoc. auto.
  - destruct (IH I) as (a & b & E). destruct ws as [|y ws]; [contradiction|]. exists (32 :: x ++ a), b.
    change (join [32] (x :: y :: ws)) with (x ++ [32] ++ join [32] (y :: ws)). rewrite <- (app_comm_cons (x ++ a)), <- (app_assoc x a). rewrite <- E, <- !app_assoc. auto.
Qed.
Definition rel_of (link : xel) : text := match x_get (u "rel") link with Some v => v | None => [] end.
Theorem C101_rel_is_a_word_list : forall rel link, rel <> [] -> (forall c, In c rel -> ~ space c) ->
  (has_rel rel link = true <-> word_of rel (rel_of link)).
Proof.
  intros rel link N S. unfold has_rel. fold (rel_of link). unfold normalize_space.
  rewrite join_words; auto.
  - rewrite words_In by (intros c []). reflexivity.
  - intros x X. destruct (words_spaceless (rel_of link) [] (fun c (F : In c []) => match F with end) x X) as (A & B). split; auto.
    intros C. apply (B 32); auto. left. auto.
  - intros C. apply (S 32); auto. left. auto.
Qed.
Print Assumptions C101_rel_is_a_word_list.

(** The first element of a list with a property. *)
Definition first_such {A} (P : A -> Prop) (l : list A) (x : option A) : Prop :=
  match x with
  | None => forall y, In y l -> ~ P y
  | Some y => exists before after, l = before ++ y :: after /\ P y /\ forall z, In z before -> ~ P z
  end.
(** All elements of all heads, in document order. *)
Definition in_heads (root : xel) : list xel :=
  if text_eqb (x_tag root) (u "html")
  then flat_map (fun h => if text_eqb (x_tag h) (u "head") then x_children h else []) (x_children root) else [].
Definition link_with (rel : text) (l : xel) : Prop := x_tag l = u "link" /\ word_of rel (rel_of l).
Lemma filter_hd {A} (f : A -> bool) (P : A -> Prop) l : (forall x, f x = true <-> P x) -> first_such P l (hd_error (filter f l)).
Proof.
  intros H. induction l as [|x l IH]; cbn [filter]; [intros y []|]. destruct (f x) eqn:E.
  - exists [], l. split; auto. split; [apply H; auto|intros z []].
  - assert (~ P x) as Nx by (intros X; apply H in X; congruence). destruct (hd_error (filter f l)) as [y|] eqn:Y; cbn in IH |- *.
    + destruct IH as (b & a & -> & Py & B). exists (x :: b), a. split; auto. split; auto. intros z [<-|Z]; auto.
    + intros z [<-|Z]; auto.
Qed.
Lemma filter_flat_map {A B} (f : B -> bool) (g : A -> list B) l : filter f (flat_map g l) = flat_map (fun x => filter f (g x)) l.
Proof. induction l as [|x l IH]; auto. cbn. rewrite filter_app, IH. auto. Qed.
Lemma head_elements_heads tag root : head_elements tag root = filter (fun l => text_eqb (x_tag l) tag) (in_heads root).
Proof.
  unfold head_elements, in_heads. destruct (text_eqb (x_tag root) (u "html")); auto. rewrite filter_flat_map. unfold x_findall at 2.
  induction (x_children root) as [|h l IH]; auto. cbn [filter flat_map]. destruct (text_eqb (x_tag h) (u "head")); cbn [flat_map]; rewrite IH; auto.
Qed.
Lemma filter_filter {A} (f g : A -> bool) l : filter f (filter g l) = filter (fun x => g x && f x) l.
Proof. induction l as [|x l IH]; auto. cbn. destruct (g x); cbn; [destruct (f x)|]; rewrite IH; auto. Qed.
Lemma rel_links_first rel root : rel <> [] -> (forall c, In c rel -> ~ space c) -> first_such (link_with rel) (in_heads root) (hd_error (rel_links rel root)).
Proof.
  intros N S. unfold rel_links. rewrite head_elements_heads, filter_filter. apply filter_hd. intros x. rewrite andb_true_iff, text_eqb_eq.
  unfold link_with. rewrite C101_rel_is_a_word_list; auto. reflexivity.
Qed.
(** The service of one protocol version on a page. *)
Inductive html_found (uri : text) (root : xel) (ty op_rel local_rel : text) : list endpoint -> Prop :=
| no_provider : first_such (link_with op_rel) (in_heads root) None -> html_found uri root ty op_rel local_rel []
| provider_without_url l : first_such (link_with op_rel) (in_heads root) (Some l) -> (x_get (u "href") l = None \/ x_get (u "href") l = Some []) ->
    html_found uri root ty op_rel local_rel []
| provider l k href : first_such (link_with op_rel) (in_heads root) (Some l) -> x_get (u "href") l = Some href -> href <> [] ->
    first_such (link_with local_rel) (in_heads root) k ->
    html_found uri root ty op_rel local_rel
      [mkEndpoint (Some uri) (Some href) [ty] (match k with None => None | Some k => x_get (u "href") k end) None false None].
Lemma html_service_found uri root ty op_rel local_rel : op_rel <> [] -> (forall c, In c op_rel -> ~ space c) -> local_rel <> [] -> (forall c, In c local_rel -> ~ space c) ->
  html_found uri root ty op_rel local_rel (html_service uri root ty op_rel local_rel).
Proof.
  intros N S N' S'. pose proof (rel_links_first op_rel root N S) as F. pose proof (rel_links_first local_rel root N' S') as F'. unfold html_service.
  destruct (rel_links op_rel root) as [|l ls]; cbn [hd_error] in F; [apply no_provider; auto|].
  destruct (x_get (u "href") l) as [[|c href]|] eqn:H.
  - apply (provider_without_url _ _ _ _ _ l); auto.
  - pose proof (provider uri root ty op_rel local_rel l (hd_error (rel_links local_rel root)) (c :: href) F H ltac:(discriminate) F') as R.
    destruct (rel_links local_rel root); exact R.
  - apply (provider_without_url _ _ _ _ _ l); auto.
Qed.
Theorem C101_links_of_a_page : forall parse uri html,
  (parse html = None /\ fromHTML parse uri html = []) \/
  exists root two one,
    parse html = Some root /\ fromHTML parse uri html = two ++ one /\
    html_found uri root (u "http://specs.openid.net/auth/2.0/signon") (u "openid2.provider") (u "openid2.local_id") two /\
    html_found uri root (u "http://openid.net/signon/1.1") (u "openid.server") (u "openid.delegate") one.
Proof.
  intros parse uri html. unfold fromHTML. destruct (parse html) as [root|]; [right|left; auto].
  assert (forall s, forallb (fun c => negb (xml_space c)) s = true -> forall c, In c s -> ~ space c) as K.
  { intros s H c C X. rewrite forallb_forall in H. specialize (H _ C). apply xml_space_spec in X. rewrite X in H. discriminate H. }
  eexists _, _, _. split; [reflexivity|]. split; [reflexivity|].
  split; apply html_service_found; try (vm_compute; discriminate); apply K; vm_compute; reflexivity.
Qed.
Print Assumptions C101_links_of_a_page.
Definition lk (rel href : text) : xel := mkXel (u "link") [(u "rel", rel); (u "href", href)] None [].
Definition page (links : list xel) : xel := mkXel (u "html") [] None [mkXel (u "head") [] None links; mkXel (u "body") [] None [lk (u "openid2.provider") (u "evil")]].
Example C101_example :
  fromHTML (fun _ => Some (page [lk (u "x-openid.server") (u "0"); lk (u " openid2.provider	openid.server ") (u "1"); lk (u "openid.server") (u "2"); lk (u "openid.delegate") (u "3")])) (u "me") [] =
    [mkEndpoint (Some (u "me")) (Some (u "1")) [OPENID_2_0_TYPE] None None false None;
     mkEndpoint (Some (u "me")) (Some (u "1")) [OPENID_1_1_TYPE] (Some (u "3")) None false None] /\
  fromHTML (fun _ => Some (page [])) (u "me") [] = [].
Proof. vm_compute. auto. Qed.

(** ** C102: the requests of discovery by URL *)
Lemma mbind_inv {A B} (m : M A) (k : A -> M B) s s' r : mbind m k s = (s', r) ->
  (exists a s1, m s = (s1, Ok a) /\ k a s1 = (s', r)) \/ (exists x, m s = (s', Raise x) /\ r = Raise x).
Proof. unfold mbind. destruct (m s) as [s1 [a|x]]; [left; exists a, s1; auto|]. intros H. injection H as <- <-. right. exists x. auto. Qed.
Lemma mret_inv {A} (x : res A) s s' r : mret x s = (s', r) -> s = s' /\ x = r.
Proof. unfold mret. intros H. split; congruence. Qed.
Definition quiet {A} (m : M A) : Prop := forall s, d_sent (fst (m s)) = d_sent s.
Lemma quiet_mret {A} (r : res A) : quiet (mret r). Proof. intros s. auto. Qed.
Lemma quiet_shuffling {A} (f : nat -> res A) : quiet (shuffling f). Proof. intros s. auto. Qed.
Lemma quiet_mbind {A B} (m : M A) (k : A -> M B) : quiet m -> (forall a, quiet (k a)) -> quiet (mbind m k).
Proof. intros Hm Hk s. unfold mbind. specialize (Hm s). destruct (m s) as [s1 [a|x]]; cbn in *; [rewrite Hk; auto|auto]. Qed.
Lemma quiet_mcatch {A} (m : M A) h : quiet m -> quiet (mcatch m h).
Proof. intros Hm s. unfold mcatch. specialize (Hm s). destruct (m s) as [s1 [a|x]]; cbn in *; auto. destruct (h x); auto. Qed.
Lemma quiet_mmap {A B} (f : A -> M (list B)) l : (forall x, quiet (f x)) -> quiet (mmap f l).
Proof.
  intros H. induction l as [|x l IH]; cbn [mmap]; [apply quiet_mret|]. apply quiet_mbind; auto. intros a. apply quiet_mbind; auto. intros b. apply quiet_mret.
Qed.
Lemma quiet_openid_filter rnd url sv : quiet (openid_filter rnd url sv).
Proof. apply quiet_mbind; [apply quiet_shuffling|]. intros a. apply quiet_mret. Qed.
Lemma quiet_applyFilter rnd px url b : quiet (applyFilter rnd px (openid_filter rnd) url b).
Proof.
  apply quiet_mbind; [apply quiet_mret|]. intros root. apply quiet_mbind; [apply quiet_shuffling|]. intros l. apply quiet_mmap. intros x. apply quiet_openid_filter.
Qed.

Definition web_url (t : text) : Prop := exists r, (t = u "http://" ++ r \/ t = u "https://" ++ r) /\ ~ In 35 t.
Lemma clean_id s : (forall c, In c s -> 33 <= c < 127) -> url_clean s = s.
Proof.
  intros H. unfold url_clean. assert (lstripf (fun c => c <=? 32) s = s) as ->.
  { destruct s as [|c s]; auto. cbn [lstripf]. specialize (H c (or_introl eq_refl)). replace (c <=? 32) with false by lia. auto. }
  induction s as [|c s IH]; auto. cbn [filter]. pose proof (H c (or_introl eq_refl)) as B.
  replace (negb ((c =? 9) || (c =? 10) || (c =? 13))) with true by lia. f_equal. apply IH. intros d D. apply H. right. auto.
Qed.
Lemma normalizeURL_web e url n : normalizeURL e url = Ok n -> web_url n.
Proof.
  unfold normalizeURL. destruct (urinorm e url) as [r|x] eqn:E; [|destruct (isValueError x); intros H; discriminate H].
  apply C31_shape in E as (scheme & netloc & path & query & fragment & Er & Hs & Hp & _ & _ & _ & _ & Hc).
  unfold urldefrag. destruct (memc 35 r) eqn:M.
  - intros H. apply bind_Ok in H as (sp & Es & H).
    assert (exists rest, r = scheme ++ 58 :: 47 :: 47 :: rest) as (rest & Er') by (eexists; rewrite Er; reflexivity). clear Er.
    unfold urlsplit in Es. rewrite clean_id in Es by auto.
    assert (split_scheme r = (scheme, 47 :: 47 :: rest)) as Ess by (rewrite Er'; destruct Hs as [<-|[<-|[]]]; reflexivity).
    rewrite Ess in Es. change (startswith (47 :: 47 :: rest) (u "//")) with (true && (true && true)) in Es. cbn [andb] in Es. cbv iota in Es.
    change (skipn 2 (47 :: 47 :: rest)) with rest in Es.
    destruct (splitnetloc rest) as [nl rr] eqn:En. apply splitnetloc_spec in En as (-> & Hn & Hr).
    destruct (netloc_ok e nl); [|discriminate Es]. cbn [bind] in Es.
    destruct (partition 35 rr) as [a fr] eqn:P1. destruct (partition 63 a) as [pa qu] eqn:P2.
    apply partition_spec in P1 as (Na & P1). apply partition_spec in P2 as (Nq & P2).
    destruct (isascii nl || ue_nfkc e nl); [|discriminate Es]. injection Es as <-. cbn [sp_scheme sp_netloc sp_path sp_query] in H.
    assert (exists path', ~ In 35 path' /\ n = urlunsplit (mkSplit scheme nl path' qu [])) as (path' & Np & ->).
    { assert (~ In 35 pa) as Npa by (intros X; apply Na; destruct P2 as [->|(-> & _)]; auto; apply in_app_iff; left; auto).
      unfold path_params in H. cbn [sp_scheme sp_path] in H.
      destruct (mem_text scheme uses_params && memc 59 pa); [|injection H as <-; exists pa; auto].
      destruct (splitparams pa) as [x y] eqn:Sp. injection H as <-. exists (if truthy y then x ++ 59 :: y else x). split; auto.
      assert (forall c, In c x \/ In c y -> In c pa) as K.
      { clear -Sp. unfold splitparams in Sp. destruct (rcut 47 pa) as [[b c]|] eqn:R.
        - apply rcut_Some in R as (-> & _). destruct (cut 59 c) as [[d f]|] eqn:C.
          + apply cut_Some in C as (-> & _). injection Sp as <- <-. intros z. rewrite !in_app_iff. cbn. rewrite !in_app_iff. cbn. tauto.
          + injection Sp as <- <-. intros z [Z|[]]; auto.
        - apply partition_spec in Sp as (_ & [->|(-> & ->)]); intros z; [rewrite in_app_iff; cbn; tauto|intros [Z|[]]; auto]. }
      destruct (truthy y); intros X; apply Npa, K; [apply in_app_iff in X as [X|[X|X]]; auto; discriminate X|auto]. }
    assert (~ In 35 qu) as Nqu by (intros X; apply Na; destruct P2 as [->|(_ & ->)]; [apply in_app_iff; right; right; auto|contradiction]).
    assert (~ In 35 nl) as Nnl.
    { intros X. rewrite forallb_forall in Hn. specialize (Hn _ X). discriminate Hn. }
    assert (exists pp, ~ In 35 pp /\ urlunsplit (mkSplit scheme nl path' qu []) = scheme ++ 58 :: 47 :: 47 :: pp) as (pp & Npp & ->).
    { unfold urlunsplit. cbn [sp_scheme sp_netloc sp_path sp_query sp_fragment].
      assert (truthy scheme && mem_text scheme uses_netloc = true) as -> by (destruct Hs as [<-|[<-|[]]]; reflexivity). rewrite orb_true_r. cbn [orb].
      assert (truthy scheme = true) as -> by (destruct Hs as [<-|[<-|[]]]; reflexivity). change (truthy (@nil N)) with false. cbv iota zeta.
      set (w := match path' with [] => [] | c :: _ => if c =? 47 then path' else 47 :: path' end).
      assert (~ In 35 w) as Nw.
      { intros X. apply Np. unfold w in X. destruct path' as [|c r']; auto. destruct (c =? 47); auto. destruct X as [X|X]; [discriminate X|auto]. }
      exists (nl ++ w ++ if truthy qu then 63 :: qu else []). split.
      - intros X. apply in_app_iff in X as [X|X]; auto. apply in_app_iff in X as [X|X]; auto. destruct (truthy qu); [|contradiction]. destruct X as [X|X]; [discriminate X|auto].
      - change (u "//") with [47; 47]. destruct (truthy qu); [|rewrite app_nil_r; auto]. rewrite <- app_assoc. cbn. rewrite <- app_assoc. auto. }
    exists pp. split; [destruct Hs as [<-|[<-|[]]]; auto|]. intros X. apply in_app_iff in X as [X|X].
    + destruct Hs as [<-|[<-|[]]]; apply (memc_In 35) in X; vm_compute in X; discriminate X.
    + destruct X as [X|[X|[X|X]]]; try discriminate X. auto.
  - intros H. injection H as <-. exists (netloc ++ path ++ (if truthy query then u "?" ++ query else []) ++ (if truthy fragment then u "#" ++ fragment else [])).
    split; [rewrite Er; destruct Hs as [<-|[<-|[]]]; auto|]. intros X. apply memc_In in X. congruence.
Qed.

Section Requests.
  Variable e : uenv.
  Variable rnd : shuffler.
  Variable web : list freq -> res fresp.
  Variable parse_xml parse_html : bytes -> option xel.
  Variable decode_as : text -> bytes -> res text.
  Variable parse_meta : (text + bytes) -> option xel.
  Notation DU := (discoverURI e rnd web parse_xml parse_html decode_as parse_meta).
  Notation DY := (discoverYadis rnd web parse_xml parse_html decode_as parse_meta).
  Notation YD := (yadisDiscover web decode_as parse_meta).

  (** A location that a page names: in its header, or without one in the first element
      for it in the head. *)
  Definition names_location (resp : fresp) (loc : text) : Prop :=
    dget text_eqb (u "x-xrds-location") (r_headers resp) = Some loc \/
    ((dget text_eqb (u "x-xrds-location") (r_headers resp) = None \/ dget text_eqb (u "x-xrds-location") (r_headers resp) = Some []) /\
     exists stream root m,
       (stream = inr (r_body resp) \/ exists enc t, decode_as enc (r_body resp) = Ok t /\ stream = inl t) /\
       parse_meta stream = Some root /\
       first_such (fun m => x_tag m = u "meta" /\ exists v, x_get (u "http-equiv") m = Some v /\ lower v = u "x-xrds-location") (in_heads root) (Some m) /\
       x_get (u "content") m = Some loc).
  Lemma findHTMLMeta_names stream loc : findHTMLMeta parse_meta stream = Ok loc -> exists root m,
       parse_meta stream = Some root /\
       first_such (fun m => x_tag m = u "meta" /\ exists v, x_get (u "http-equiv") m = Some v /\ lower v = u "x-xrds-location") (in_heads root) (Some m) /\
       x_get (u "content") m = Some loc.
  Proof using.
    unfold findHTMLMeta. destruct (parse_meta stream) as [root|]; [|intros H; discriminate H]. intros H. exists root.
    rewrite head_elements_heads, filter_filter in H. match type of H with match filter ?g _ with _ => _ end = _ => set (f := g) in H end.
    pose proof (filter_hd f (fun m => x_tag m = u "meta" /\ exists v, x_get (u "http-equiv") m = Some v /\ lower v = u "x-xrds-location") (in_heads root)) as F.
    destruct (filter f (in_heads root)) as [|m ms]; [discriminate H|]. exists m. split; auto. split.
    - apply F. intros x. unfold f. rewrite andb_true_iff, text_eqb_eq. destruct (x_get (u "http-equiv") x) as [v|].
      + rewrite text_eqb_eq. split; intros (A & B); split; auto; [exists v; auto|]. destruct B as (v' & E & B). injection E as ->. auto.
      + split; intros (A & B); [discriminate B|]. destruct B as (v & E & _). discriminate E.
    - destruct (x_get (u "content") m); [congruence|discriminate H].
  Qed.
  Lemma whereIsYadis_names resp loc : whereIsYadis decode_as parse_meta resp = Ok (Some loc) -> loc <> [] -> loc <> r_final_url resp -> names_location resp loc.
  Proof using.
    intros H N1 N2. unfold whereIsYadis in H. match type of H with (if ?c then _ else _) = _ => destruct c end; [congruence|].
    unfold YADIS_HEADER_NAME_lower in H. destruct (dget text_eqb (u "x-xrds-location") (r_headers resp)) as [h|] eqn:Eh.
    - unfold otruthy in H. destruct h as [|c h]; cbn [truthy] in H.
      + right. split; auto. apply bind_Ok in H as (buff & Eb & H). exists buff.
        assert (findHTMLMeta parse_meta buff = Ok loc) as Ef.
        { destruct (findHTMLMeta parse_meta buff) as [l|x]; [congruence|]. exfalso. destruct x; cbn in H; congruence. }
        apply findHTMLMeta_names in Ef as (root & m & A). exists root, m. split; auto.
        destruct (decode_as _ _) as [t|x] eqn:Ed in Eb; [right; eexists _, t; split; [exact Ed|congruence]|left]. destruct (isUnicodeError x); [congruence|discriminate Eb].
      + left. rewrite Eh. congruence.
    - cbn [otruthy] in H. right. split; auto. apply bind_Ok in H as (buff & Eb & H). exists buff.
      assert (findHTMLMeta parse_meta buff = Ok loc) as Ef.
      { destruct (findHTMLMeta parse_meta buff) as [l|x]; [congruence|]. exfalso. destruct x; cbn in H; congruence. }
      apply findHTMLMeta_names in Ef as (root & m & A). exists root, m. split; auto.
      destruct (decode_as _ _) as [t|x] eqn:Ed in Eb; [right; eexists _, t; split; [exact Ed|congruence]|left]. destruct (isUnicodeError x); [congruence|discriminate Eb].
  Qed.

  (** The requests made for the page [n] after those of [sent]. *)
  Definition good_answer (sent : list freq) (resp : fresp) : Prop := web sent = Ok resp /\ (r_status resp = 200 \/ r_status resp = 206).
  Lemma status_ok_spec n : status_ok n = true <-> n = 200 \/ n = 206.
  Proof using. unfold status_ok. lia. Qed.
  Inductive yadis_requests (sent : list freq) (n : text) : list freq -> Prop :=
  | asked_page : yadis_requests sent n [mkFreq n true]
  | asked_location resp loc :
      good_answer (sent ++ [mkFreq n true]) resp -> names_location resp loc -> loc <> [] -> loc <> r_final_url resp ->
      yadis_requests sent n [mkFreq n true; mkFreq loc false].
  Inductive page_requests (sent : list freq) (n : text) : list freq -> Prop :=
  | asked_once q : yadis_requests sent n q -> page_requests sent n q
  | asked_again q : yadis_requests sent n q -> page_requests sent n (q ++ [mkFreq n false]).
  Lemma YD_requests n s s' r : YD n s = (s', r) ->
    exists q, d_sent s' = d_sent s ++ q /\ yadis_requests (d_sent s) n q /\
      forall y, r = Ok y -> exists resp, good_answer (d_sent s ++ [mkFreq n true]) resp /\ y_normalized_uri y = r_final_url resp.
  Proof using.
    intros H. unfold yadisDiscover in H. apply mbind_inv in H as [(resp & s1 & F & H)|(x & F & ->)].
    2:{ unfold fetch in F. injection F as <- F. cbn. eexists. split; [reflexivity|]. split; [apply asked_page|]. intros y Y. discriminate Y. }
    unfold fetch in F. injection F as <- F.
    destruct (status_ok (r_status resp)) eqn:St; cbn [negb] in H.
    2:{ injection H as <- <-. cbn. eexists. split; [reflexivity|]. split; [apply asked_page|]. intros y Y. discriminate Y. }
    apply status_ok_spec in St. assert (good_answer (d_sent s ++ [mkFreq n true]) resp) as G by (split; auto).
    apply mbind_inv in H as [(loc & s2 & W & H)|(x & W & ->)]; injection W as <- W.
    2:{ cbn. eexists. split; [reflexivity|]. split; [apply asked_page|]. intros y Y. discriminate Y. }
    destruct (otruthy loc && usedYadisLocation (r_final_url resp) loc) eqn:C.
    - apply andb_prop in C as (C1 & C2). destruct loc as [loc|]; [|discriminate C1]. cbn [usedYadisLocation] in C2.
      assert (loc <> []) as N1 by (intros ->; discriminate C1). assert (loc <> r_final_url resp) as N2 by (intros ->; rewrite text_eqb_refl in C2; discriminate C2).
      pose proof (asked_location (d_sent s) n resp loc G (whereIsYadis_names _ _ W N1 N2) N1 N2) as Q.
      exists [mkFreq n true; mkFreq loc false]. change [mkFreq n true; mkFreq loc false] with ([mkFreq n true] ++ [mkFreq loc false]) at 1. rewrite app_assoc.
      apply mbind_inv in H as [(resp2 & s3 & F2 & H)|(x & F2 & ->)]; unfold fetch in F2; injection F2 as <- F2; cbn [d_sent].
      + assert (s' = mkDst ((d_sent s ++ [mkFreq n true]) ++ [mkFreq loc false]) (d_shuffles s)) as -> by (destruct (status_ok (r_status resp2)); cbn in H; injection H as <- _; reflexivity).
        split; [reflexivity|]. split; auto. intros y ->. destruct (status_ok (r_status resp2)); cbn in H; [|discriminate H]. injection H as <-.
        exists resp. auto.
      + split; [reflexivity|]. split; auto. intros y Y. discriminate Y.
    - injection H as <- <-. cbn [d_sent]. eexists. split; [reflexivity|]. split; [apply asked_page|]. intros y Y. injection Y as <-. exists resp. auto.
  Qed.
  (** Which page the claimed identifier is that of: the answer to a request for [n]. *)
  Definition page_of (sent q : list freq) (n : text) (resp : fresp) : Prop :=
    good_answer (sent ++ [mkFreq n true]) resp \/ (good_answer (sent ++ q) resp /\ exists q', q = q' ++ [mkFreq n false]).
  Lemma DY_requests n s s' r : DY n s = (s', r) ->
    exists q, d_sent s' = d_sent s ++ q /\ page_requests (d_sent s) n q /\
      forall c eps, r = Ok (c, eps) -> exists resp, page_of (d_sent s) q n resp /\ c = r_final_url resp.
  Proof using.
    intros H. unfold discoverYadis in H. apply mbind_inv in H as [(y & s1 & Y & H)|(x & Y & ->)].
    2:{ apply YD_requests in Y as (q & E & Q & _). exists q. split; auto. split; [apply asked_once; auto|]. intros c eps E'. discriminate E'. }
    apply YD_requests in Y as (q & E & Q & K). destruct (K y eq_refl) as (resp & G & Eu).
    match type of H with mbind ?m ?k s1 = _ => pose proof (quiet_mcatch _ (fun x => if isXRDSError x then Some (Ok []) else None) (quiet_applyFilter rnd parse_xml (y_normalized_uri y) (y_body y)) s1) as Qt; apply (mbind_inv m k) in H as [(eps & s2 & A & H)|(x & A & ->)] end;
      rewrite A in Qt; cbn [fst] in Qt.
    2:{ exists q. split; [congruence|]. split; [apply asked_once; auto|]. intros c eps E'. discriminate E'. }
    destruct eps as [|ep eps].
    - destruct (y_isXRDS y).
      + exists (q ++ [mkFreq n false]). unfold discoverNoYadis in H. apply mbind_inv in H as [(resp2 & s3 & F & H)|(x & F & ->)]; unfold fetch in F; injection F as <- F.
        * rewrite Qt, E in H, F. rewrite <- app_assoc in H, F.
          assert (s' = mkDst (d_sent s ++ q ++ [mkFreq n false]) (d_shuffles s2)) as -> by (destruct (status_ok (r_status resp2)); cbn in H; injection H as <- _; reflexivity).
          split; [auto|]. split; [apply asked_again; auto|]. intros c eps ->. destruct (status_ok (r_status resp2)) eqn:St; cbn in H; [|discriminate H]. injection H as <- <-.
          exists resp2. split; auto. right. split; [split; auto; apply status_ok_spec; auto|]. exists q. auto.
        * cbn [d_sent]. rewrite Qt, E. rewrite <- app_assoc. split; [auto|]. split; [apply asked_again; auto|]. intros c eps E'. discriminate E'.
      + exists q. injection H as <- <-. split; [congruence|]. split; [apply asked_once; auto|]. intros c eps' E'. injection E' as <- _. exists resp. split; auto. left. auto.
    - exists q. injection H as <- <-. split; [congruence|]. split; [apply asked_once; auto|]. intros c eps' E'. injection E' as <- _. exists resp. split; auto. left. auto.
  Qed.
  (** Discovery by URL asks for nothing, or for one page on the web, then perhaps for a
      location named by that page, then perhaps for the page again. *)
  Theorem C102_requests : forall uri s s' r, DU uri s = (s', r) ->
    exists q, d_sent s' = d_sent s ++ q /\
      ((q = [] /\ exists x, r = Raise x) \/
       exists n, web_url n /\ page_requests (d_sent s) n q /\
         (normalizeURL e uri = Ok n \/ normalizeURL e (u "http://" ++ uri) = Ok n)).
  Proof using.
    intros uri s s' r H. unfold discoverURI in H. apply mbind_inv in H as [(n & s1 & N & H)|(x & N & ->)]; apply mret_inv in N as (<- & N).
    2:{ exists []. rewrite app_nil_r. split; auto. left. split; auto. exists x. auto. }
    apply bind_Ok in N as (p & Ep & N). apply bind_Ok in N as (uri' & Eu & N).
    assert (uri' = uri \/ uri' = u "http://" ++ uri) as Hu.
    { destruct (truthy (sp_scheme p) && truthy (sp_netloc p)); [|right; apply (f_equal (fun r => match r with Ok t => t | _ => [] end)) in Eu; symmetry; exact Eu]. destruct (mem_text _ _); [left; congruence|discriminate Eu]. }
    assert (exists q, d_sent s' = d_sent s ++ q /\ page_requests (d_sent s) n q) as (q & E & Q).
    { apply mbind_inv in H as [(ce & s2 & D & H)|(x & D & ->)].
      - injection H as <- <-. apply DY_requests in D as (q & E & Q & _). exists q. auto.
      - apply DY_requests in D as (q & E & Q & _). exists q. auto. }
    exists q. split; auto. right. exists n. split; [eapply normalizeURL_web; eauto|]. split; auto. destruct Hu as [-> | ->]; auto.
  Qed.

  (** ** C103: claimed identifiers *)
  Lemma openid_ep b x ep : fromBasicServiceEndpoint b = Ok x -> x = Some ep ->
    ep_claimed_id ep = (if isOPIdentifier ep then None else Some (b_yadis_url b)) /\ ep_canonicalID ep = None /\ ep_display_identifier ep = None /\
    (isOPIdentifier ep = true -> ep_local_id ep = None) /\ ep_used_yadis ep = true.
  Proof using.
    unfold fromBasicServiceEndpoint. intros H ->. destruct (matchTypes b openid_type_uris) as [|t ts]; [discriminate H|]. destruct (b_uri b) as [uri|]; [|discriminate H].
    apply bind_Ok in H as (ep' & P & H). injection H as ->. unfold parseService in P.
    set (ep0 := mkEndpoint None (Some uri) (b_type_uris b) None None true None) in P.
    destruct (isOPIdentifier ep0) eqn:I.
    - injection P as <-. rewrite I. auto.
    - apply bind_Ok in P as (l & L & P). injection P as <-. change (isOPIdentifier (mkEndpoint (Some (b_yadis_url b)) (Some uri) (b_type_uris b) l None true None)) with (isOPIdentifier ep0).
      rewrite I. split; auto. split; auto. split; auto. split; auto. intros X. discriminate X.
  Qed.
  Lemma mmap_In {A B} (f : A -> M (list B)) l : forall s s' bs, mmap f l s = (s', Ok bs) -> forall b, In b bs -> exists a s1 s2 bs', In a l /\ f a s1 = (s2, Ok bs') /\ In b bs'.
  Proof using.
    induction l as [|a l IH]; intros s s' bs H b I; cbn [mmap] in H.
    - injection H as _ <-. contradiction.
    - apply mbind_inv in H as [(b1 & s1 & F & H)|(x & _ & X)]; [|discriminate X].
      apply mbind_inv in H as [(b2 & s2 & F2 & H)|(x & _ & X)]; [|discriminate X]. injection H as <- <-. apply in_app_iff in I as [I|I].
      + exists a, s, s1, b1. split; [left; auto|]. auto.
      + destruct (IH _ _ _ F2 _ I) as (a' & s3 & s4 & bs' & A1 & A2 & A3). exists a', s3, s4, bs'. split; [right; auto|]. auto.
  Qed.
  Definition claims (c : text) (ep : endpoint) : Prop :=
    ep_claimed_id ep = (if isOPIdentifier ep then None else Some c) /\ ep_canonicalID ep = None /\ ep_display_identifier ep = None /\
    (isOPIdentifier ep = true -> ep_local_id ep = None).
  Lemma openid_filter_claims url sv s s' eps : openid_filter rnd url sv s = (s', Ok eps) -> Forall (claims url) eps.
  Proof using.
    intros H. apply mbind_inv in H as [(ts & s1 & _ & H)|(x & _ & X)]; [|discriminate X]. injection H as <- H.
    apply bind_Ok in H as (l & Ml & H). injection H as <-. apply Forall_forall. intros ep I. apply in_flat_map in I as (x & Ix & I).
    destruct x as [ep'|]; [|contradiction]. destruct I as [->|[]].
    apply mapM_Ok_Forall2 in Ml. clear s1. induction Ml as [|t x ts l Ht Ml IH]; [contradiction|]. destruct Ix as [->|Ix]; auto.
    destruct t as [[types uri] sv']. cbn [applyFilters] in Ht. apply bind_Ok in Ht as (y & Hy & Ht). destruct y as [y|]; [|discriminate Ht]. injection Ht as <-.
    destruct (openid_ep _ _ _ Hy eq_refl) as (A & B & C & D & _). split; auto.
  Qed.
  Lemma fromHTML_claims uri html : Forall (claims uri) (fromHTML parse_html uri html).
  Proof using.
    unfold fromHTML. destruct (parse_html html) as [root|]; [|constructor].
    apply Forall_app. split; unfold html_service.
    - destruct (rel_links _ root) as [|l ls]; [constructor|]. destruct (x_get (u "href") l) as [[|c r]|]; repeat constructor. intros X. discriminate X.
    - destruct (rel_links _ root) as [|l ls]; [constructor|]. destruct (x_get (u "href") l) as [[|c r]|]; repeat constructor. intros X. discriminate X.
  Qed.
  Lemma DY_claims n s s' c eps : DY n s = (s', Ok (c, eps)) -> Forall (claims c) eps.
  Proof using.
    intros H. unfold discoverYadis in H. apply mbind_inv in H as [(y & s1 & Y & H)|(x & _ & X)]; [|discriminate X].
    apply mbind_inv in H as [(eps0 & s2 & A & H)|(x & _ & X)]; [|discriminate X].
    assert (forall l, Forall (claims c) l -> Forall (claims c) (getOPOrUserServices l)) as P.
    { intros l L. rewrite C57_providers_first. rewrite Forall_forall in *. intros x I. apply in_app_iff in I as [I|I]; apply filter_In in I; apply L, I. }
    destruct eps0 as [|ep eps0].
    - destruct (y_isXRDS y).
      + unfold discoverNoYadis in H. apply mbind_inv in H as [(resp2 & s3 & _ & H)|(x & _ & X)]; [|discriminate X].
        destruct (status_ok (r_status resp2)); cbn [negb] in H; [|discriminate H]. apply mret_inv in H as (_ & H). injection H as <- <-. apply fromHTML_claims.
      + apply mret_inv in H as (_ & H). injection H as <- <-. apply P, fromHTML_claims.
    - apply mret_inv in H as (_ & H). injection H as <- <-. apply P. unfold mcatch in A.
      destruct (applyFilter _ _ _ _ _ s1) as [s4 [l|x]] eqn:F; [|destruct (isXRDSError x); discriminate A]. injection A as -> ->.
      apply Forall_forall. intros x I. unfold applyFilter in F. apply mbind_inv in F as [(root & s5 & _ & F)|(z & _ & X)]; [|discriminate X].
      apply mbind_inv in F as [(svs & s6 & _ & F)|(z & _ & X)]; [|discriminate X].
      destruct (mmap_In _ _ _ _ _ F _ I) as (sv & s7 & s8 & bs & _ & O & B). apply openid_filter_claims in O. rewrite Forall_forall in O. auto.
  Qed.
  (** Endpoints of providers claim no identifier, all others claim the address of the
      page, after redirections, that was asked for. *)
  Theorem C103_claimed_identifier : forall uri s s' c eps, DU uri s = (s', Ok (c, eps)) ->
    exists n q resp,
      (normalizeURL e uri = Ok n \/ normalizeURL e (u "http://" ++ uri) = Ok n) /\
      d_sent s' = d_sent s ++ q /\ page_of (d_sent s) q n resp /\
      normalizeURL e (r_final_url resp) = Ok c /\ Forall (claims (r_final_url resp)) eps.
  Proof using.
    intros uri s s' c eps H. unfold discoverURI in H. apply mbind_inv in H as [(n & s1 & N & H)|(x & _ & X)]; [|discriminate X]. apply mret_inv in N as (<- & N).
    apply bind_Ok in N as (p & Ep & N). apply bind_Ok in N as (uri' & Eu & N).
    assert (uri' = uri \/ uri' = u "http://" ++ uri) as Hu.
    { destruct (truthy (sp_scheme p) && truthy (sp_netloc p)); [|right; apply (f_equal (fun r => match r with Ok t => t | _ => [] end)) in Eu; symmetry; exact Eu].
      destruct (mem_text _ _); [left; congruence|discriminate Eu]. }
    apply mbind_inv in H as [((c0 & eps0) & s2 & D & H)|(x & _ & X)]; [|discriminate X]. apply mret_inv in H as (<- & H).
    apply bind_Ok in H as (c' & Nc & H). cbn [fst snd] in *. injection H as <- <-.
    pose proof (DY_claims _ _ _ _ _ D) as Cl. apply DY_requests in D as (q & E & _ & K). destruct (K _ _ eq_refl) as (resp & P & ->).
    exists n, q, resp. split; [destruct Hu as [-> | ->]; auto|]. auto.
  Qed.
End Requests.
Print Assumptions C102_requests.
Print Assumptions C103_claimed_identifier.

(** ** Witnesses *)
Definition no_env : uenv := mkUenv (fun _ => false) (fun _ => false) (fun _ => None).
Definition answer (final : text) (hdrs : dict text text) : res fresp := Ok (mkResp final 200 hdrs []).
Definition at_page (final : text) : res fresp := answer final [].
Definition no_sort : shuffler := fun _ l => l.
Definition d0 : dst := mkDst [] 0.
Definition utf8 (enc : text) (b : bytes) : res text := Ok b.
(** The user's page names a location of any scheme, and it is asked for. *)
Definition file_location (sent : list freq) : res fresp :=
  match sent with [_] => answer (u "http://user.example/") [(u "x-xrds-location", u "file:///etc/passwd")] | _ => at_page (u "x") end.
Example C102_example :
  d_sent (fst (discoverURI no_env no_sort file_location (fun _ => None) (fun _ => None) utf8 (fun _ => None) (u "USER.example/a/../#x") d0)) =
    [mkFreq (u "http://user.example/") true; mkFreq (u "file:///etc/passwd") false; mkFreq (u "http://user.example/") false] /\
  discoverURI no_env no_sort file_location (fun _ => None) (fun _ => None) utf8 (fun _ => None) (u "ftp://a/") d0 = (d0, Raise DiscoveryFailure).
Proof. vm_compute. auto. Qed.
Theorem C104_only_web_requests_refuted :
  exists web uri q, In q (d_sent (fst (discoverURI no_env no_sort web (fun _ => None) (fun _ => None) utf8 (fun _ => None) uri d0))) /\
    startswith (f_url q) (u "file:") = true.
Proof. exists file_location, (u "http://user.example/"), (mkFreq (u "file:///etc/passwd") false). vm_compute. auto. Qed.
Print Assumptions C104_only_web_requests_refuted.

(** The claimed identifier returned and that of the endpoints differ when the page is at an
    address that is not normal. *)
Definition html_page : xel := page [lk (u "openid2.provider") (u "http://op.example/")].
Definition discovered (final : text) : res (text * list endpoint) :=
  snd (discoverURI no_env no_sort (fun _ => at_page final) (fun _ => None) (fun _ => Some html_page) utf8 (fun _ => None) (u "http://user.example/") d0).
Example C103_example :
  discovered (u "http://other.example/me") =
    Ok (u "http://other.example/me", [mkEndpoint (Some (u "http://other.example/me")) (Some (u "http://op.example/")) [OPENID_2_0_TYPE] None None false None]).
Proof. vm_compute. auto. Qed.
Theorem C105_same_claimed_identifier_refuted :
  exists final c ep eps, discovered final = Ok (c, ep :: eps) /\ isOPIdentifier ep = false /\ ep_claimed_id ep <> Some c.
Proof.
  exists (u "http://user.example#me"), (u "http://user.example/"). eexists _, _. split; [vm_compute; reflexivity|]. split; [vm_compute; reflexivity|]. vm_compute. intros H. discriminate H.
Qed.
Print Assumptions C105_same_claimed_identifier_refuted.
