(** C98: what the 'server' command configures. *)
From Verif Require Import Base BaseLemmas PyStrModel PyStrProofs HttpProofs SrvCmdModel SrvCmdSpec.
From Coq Require Import ZifyBool ZifyNat Lia.
Open Scope list_scope.

(** ** Ports *)
Section Ports.
  Context (os : nat -> str -> Z -> bool -> option Z) (overrides : list (str * Z)).

  (** Every item gets the port of the socket the system gave for it, which was asked for
      with the overriding port if there is one and with its own otherwise; nothing else
      of it changes. *)
  Theorem C98_ports_items : forall items i p0 items' ports,
    assign os overrides i items p0 = Some (items', ports) ->
    List.length items' = List.length items /\
    forall j it, nth_error items j = Some it -> exists q,
      nth_error items' j = Some (mkPort (pi_name it) (pi_host it) q (pi_tcp it)) /\
      os (i + j)%nat (pi_host it) (match dget (pi_name it) overrides with Some p => p | None => pi_port it end) (pi_tcp it) = Some q.
  Proof.
    induction items as [|it items IH]; intros i p0 items' ports H; cbn [assign] in H.
    - injection H as <- <-. split; [reflexivity|]. intros [|j] it X; discriminate.
    - destruct (os i (pi_host it) (wanted overrides it) (pi_tcp it)) as [p|] eqn:O; [|discriminate].
      destruct (assign os overrides (S i) items (dset (pi_name it) p p0)) as [[l ports1]|] eqn:A; [|discriminate]. injection H as <- <-.
      destruct (IH _ _ _ _ A) as (L & N). split; [cbn; congruence|]. intros [|j] it' X.
      + injection X as <-. exists p. split; [reflexivity|]. rewrite Nat.add_0_r. exact O.
      + destruct (N j it' X) as (q & Q1 & Q2). exists q. split; [exact Q1|]. rewrite Nat.add_succ_r. exact Q2.
  Qed.
  (** A name stands for the port of the last item that has it. *)
  Theorem C98_ports_names : forall items i p0 items' ports,
    assign os overrides i items p0 = Some (items', ports) ->
    forall n, dget n ports =
      match filter (fun it => str_eqb (pi_name it) n) (rev items') with it :: _ => Some (pi_port it) | [] => dget n p0 end.
  Proof.
    induction items as [|it items IH]; intros i p0 items' ports H n; cbn [assign] in H.
    - injection H as <- <-. reflexivity.
    - destruct (os i (pi_host it) (wanted overrides it) (pi_tcp it)) as [p|] eqn:O; [|discriminate].
      destruct (assign os overrides (S i) items (dset (pi_name it) p p0)) as [[l ports1]|] eqn:A; [|discriminate]. injection H as <- <-.
      rewrite (IH _ _ _ _ A n). cbn [rev]. rewrite filter_app. cbn [filter pi_name pi_port].
      destruct (filter (fun it0 => str_eqb (pi_name it0) n) (rev l)) as [|x r]; cbn [app]; [|reflexivity].
      rewrite dget_dset. destruct (str_eqb (pi_name it) n) eqn:E.
      + apply str_eqb_eq in E. destruct (eq_dec n (pi_name it)); [reflexivity|congruence].
      + destruct (eq_dec n (pi_name it)) as [->|]; [|reflexivity]. rewrite str_eqb_refl in E. discriminate.
  Qed.
  (** It fails exactly if the system has no socket for some item. *)
  Theorem C98_ports_fail : forall items i p0,
    assign os overrides i items p0 = None <->
    exists j it, nth_error items j = Some it /\
      os (i + j)%nat (pi_host it) (match dget (pi_name it) overrides with Some p => p | None => pi_port it end) (pi_tcp it) = None.
  Proof.
    induction items as [|it items IH]; intros i p0; cbn [assign].
    - split; [discriminate|]. intros ([|j] & it & X & _); discriminate.
    - destruct (os i (pi_host it) (wanted overrides it) (pi_tcp it)) as [p|] eqn:O.
      + specialize (IH (S i) (dset (pi_name it) p p0)). destruct (assign os overrides (S i) items (dset (pi_name it) p p0)) as [[l ports1]|].
        * split; [discriminate|]. intros ([|j] & it' & X & Y).
          -- injection X as <-. rewrite Nat.add_0_r in Y. unfold wanted in O. congruence.
          -- destruct IH as (_ & IH). rewrite Nat.add_succ_r in Y. cbn [nth_error] in X. discriminate (IH (ex_intro _ j (ex_intro _ it' (conj X Y)))).
        * split; [|reflexivity]. intros _. destruct IH as (IH & _). destruct (IH eq_refl) as (j & it' & X & Y).
          exists (S j), it'. split; [exact X|]. rewrite Nat.add_succ_r. exact Y.
      + split; [|reflexivity]. intros _. exists 0%nat, it. split; [reflexivity|]. rewrite Nat.add_0_r. exact O.
  Qed.
  (** Of two items with one name the references mean the second, although the first has a
      port of its own. *)
  Theorem C98_duplicate_port_refuted : forall a b items ports p q,
    pi_name a = pi_name b -> assign os overrides 0 [a; b] [] = Some (items, ports) ->
    os 0%nat (pi_host a) (wanted overrides a) (pi_tcp a) = Some p ->
    os 1%nat (pi_host b) (wanted overrides b) (pi_tcp b) = Some q ->
    dget (pi_name a) ports = Some q /\ map pi_port items = [p; q].
  Proof.
    intros a b items ports p q E H O1 O2. cbn [assign] in H. rewrite O1, O2 in H.
    assert (Ep : ports = dset (pi_name b) q (dset (pi_name a) p [])) by congruence.
    split; [rewrite Ep, E; apply dget_dset_eq|]. injection H as <- _. reflexivity.
  Qed.
  (** The port of the command, whatever other ports there are. *)
  Theorem C98_own_port : forall a before after items ports,
    others a after ->
    assign os overrides 0 (before ++ g_ports (config_data a) ++ after) [] = Some (items, ports) ->
    exists q, dget (own_port a) ports = Some q /\
      os (List.length before) [] (match dget (own_port a) overrides with Some p => p | None => a_port a end) (negb (a_udp a)) = Some q.
  Proof.
    intros a before after items ports Ho H.
    destruct (C98_ports_items _ _ _ _ _ H) as (L & N).
    assert (X : nth_error (before ++ g_ports (config_data a) ++ after) (List.length before) = Some (mkPort (own_port a) [] (a_port a) (negb (a_udp a)))).
    { rewrite nth_error_app2 by lia. rewrite Nat.sub_diag. reflexivity. }
    destruct (N _ _ X) as (q & Q1 & Q2). cbn [pi_name pi_host pi_port pi_tcp] in *. exists q. split; [|exact Q2].
    rewrite (C98_ports_names _ _ _ _ _ H).
    destruct (nth_error_split _ _ Q1) as (l1 & l2 & El & Ll). subst items.
    rewrite rev_app_distr. cbn [rev]. rewrite <- app_assoc, filter_app.
    assert (F : filter (fun it => str_eqb (pi_name it) (own_port a)) (rev l2) = []).
    { destruct (filter (fun it => str_eqb (pi_name it) (own_port a)) (rev l2)) as [|x r] eqn:F; [reflexivity|].
      assert (Ix : In x (filter (fun it => str_eqb (pi_name it) (own_port a)) (rev l2))) by (rewrite F; left; reflexivity).
      apply filter_In in Ix. destruct Ix as (Ix & Ex). apply str_eqb_eq in Ex. apply in_rev in Ix.
      destruct (In_nth_error _ _ Ix) as (m & M).
      assert (M2 : nth_error (l1 ++ mkPort (own_port a) [] q (negb (a_udp a)) :: l2) (List.length before + S m) = Some x).
      { rewrite nth_error_app2 by lia. replace (List.length before + S m - List.length l1)%nat with (S m) by lia. exact M. }
      assert (Bd : (m < List.length after)%nat).
      { assert (M0 : (m < List.length l2)%nat) by (apply nth_error_Some; congruence). rewrite !app_length in L. cbn in L. lia. }
      destruct (nth_error after m) as [it|] eqn:Na; [|apply nth_error_None in Na; lia].
      assert (M3 : nth_error (before ++ g_ports (config_data a) ++ after) (List.length before + S m) = Some it).
      { rewrite nth_error_app2 by lia. replace (List.length before + S m - List.length before)%nat with (S m) by lia. exact Na. }
      destruct (N _ _ M3) as (q' & Q3 & _). rewrite M2 in Q3. injection Q3 as ->. cbn in Ex. exfalso.
      apply (Ho it (nth_error_In _ _ Na)). exact Ex. }
    rewrite F. cbn [app filter pi_name]. rewrite str_eqb_refl. reflexivity.
  Qed.
End Ports.

(** ** Arguments *)
Lemma dget_resolve ports k x : dget x (resolve_kwargs ports k) = option_map (resolve_kv ports) (dget x k).
Proof. induction k as [|[y v] k IH]; cbn; [reflexivity|]. destruct (eq_dec x y); [reflexivity|exact IH]. Qed.
Lemma resolve_plain ports s : plain s -> resolve ports (AS s) = AS s.
Proof. intros P. destruct s as [|c n]; cbn; [reflexivity|]. destruct (c =? 36) eqn:E; [|reflexivity]. apply Z.eqb_eq in E. subst c. destruct (P n eq_refl). Qed.
Lemma resolve_ref ports a q : dget (own_port a) ports = Some q -> resolve ports (AS (port_ref a)) = AI q.
Proof. intros H. unfold own_port in H. unfold port_ref, resolve. change (36 =? 36) with true. cbv iota. rewrite H. reflexivity. Qed.
Lemma kwargs_get a o : forall l k,
  dget o (fold_left (fun acc o => match a_opt a o with Some v => dset o (KA (AS v)) acc | None => acc end) l k) =
  if in_dec eq_dec o l then match a_opt a o with Some v => Some (KA (AS v)) | None => dget o k end else dget o k.
Proof.
  induction l as [|x l IH]; intros k; [reflexivity|]. cbn [fold_left]. rewrite IH.
  destruct (in_dec eq_dec o (x :: l)) as [I|I]; destruct (in_dec eq_dec o l) as [I2|I2]; try reflexivity.
  - destruct (a_opt a o) as [v|] eqn:E; [reflexivity|]. destruct (a_opt a x) as [w|] eqn:E2; [|reflexivity].
    rewrite dget_dset_ne by congruence. reflexivity.
  - destruct I as [->|I]; [|contradiction]. destruct (a_opt a o) as [v|]; [|reflexivity]. apply dget_dset_eq.
  - exfalso. apply I. right. exact I2.
  - destruct (a_opt a x) as [w|]; [|reflexivity]. apply dget_dset_ne. intros ->. apply I. left. reflexivity.
Qed.
Lemma get_kwargs_option a k o : In o ssl_options -> dget o k = None ->
  dget o (get_kwargs a k) = option_map (fun v => KA (AS v)) (a_opt a o).
Proof. intros I N. unfold get_kwargs. rewrite kwargs_get. change PASSTHROUGH with ssl_options. destruct (in_dec eq_dec o ssl_options); [|contradiction]. rewrite N. destruct (a_opt a o); reflexivity. Qed.
Lemma get_kwargs_other a k o : ~ In o ssl_options -> dget o (get_kwargs a k) = dget o k.
Proof. intros I. unfold get_kwargs. rewrite kwargs_get. change PASSTHROUGH with ssl_options. destruct (in_dec eq_dec o ssl_options); [contradiction|reflexivity]. Qed.
Lemma resolved_options a ports k : plain_options a -> (forall o, In o ssl_options -> dget o k = None) ->
  passes_options a (resolve_kwargs ports (get_kwargs a k)).
Proof.
  intros P N o I. rewrite dget_resolve, get_kwargs_option by auto. destruct (a_opt a o) as [v|] eqn:E; [|reflexivity].
  cbn [option_map resolve_kv]. rewrite resolve_plain by (apply (P o v I E)). reflexivity.
Qed.
Lemma no_option_key (k : kwargs) : forallb (fun x => negb (existsb (str_eqb (fst x)) ssl_options)) k = true ->
  forall o, In o ssl_options -> dget o k = None.
Proof.
  intros F o I. destruct (dget o k) as [v|] eqn:E; [|reflexivity]. apply dget_In in E. rewrite forallb_forall in F. specialize (F _ E). cbn [fst] in F.
  apply negb_true_iff in F. assert (X : existsb (str_eqb o) ssl_options = true) by (apply existsb_exists; exists o; split; [exact I|apply str_eqb_refl]). congruence.
Qed.

(** A TCP server listens on the host and the port of the command with the options that
    are given; nothing else listens. *)
Theorem C98_tcp_server : forall a ports q,
  a_udp a = false -> plain (a_host a) -> plain_options a -> dget (own_port a) ports = Some q ->
  exists k, map (call_server ports) (g_servers (config_data a)) = [mkServer (a_factory a) k] /\
    passes_options a k /\
    besides_options k [(lit "port", KA (AI q)); (lit "host", KA (AS (a_host a)))] /\
    (a_loopback a = false -> g_clients (config_data a) = []).
Proof.
  intros a ports q U Hp Ho Q. exists (s_kwargs (call_server ports (server_data a))).
  unfold config_data. rewrite U. cbn [g_servers negb map g_clients app]. split; [reflexivity|].
  cbn [call_server server_data s_kwargs]. split; [|split].
  - apply resolved_options; [exact Ho|]. apply no_option_key. vm_compute. reflexivity.
  - intros x Nx. rewrite dget_resolve, get_kwargs_other by exact Nx. cbn [dget].
    destruct (eq_dec x (lit "port")); cbn [option_map resolve_kv]; [rewrite (resolve_ref ports a q Q); reflexivity|].
    destruct (eq_dec x (lit "host")); cbn [option_map resolve_kv]; [rewrite resolve_plain by exact Hp; reflexivity|reflexivity].
  - intros ->. reflexivity.
Qed.
(** A UDP server is a connection bound to every address and the port of the command. *)
Theorem C98_udp_server : forall a ports q,
  a_udp a = true -> plain_options a -> dget (own_port a) ports = Some q ->
  g_servers (config_data a) = [] /\
  exists k rest, map (call_client ports) (g_clients (config_data a)) = mkClient (port_name a (lit "server")) false (a_factory a) [] k :: rest /\
    passes_options a k /\
    besides_options k [(lit "local_addr", KL [AS (lit "0.0.0.0"); AI q])] /\
    (a_loopback a = false -> rest = []).
Proof.
  intros a ports q U Ho Q. unfold config_data. rewrite U. cbn [g_servers negb map g_clients app]. split; [reflexivity|].
  exists (resolve_kwargs ports (get_kwargs a [(lit "local_addr", KL [AS (lit "0.0.0.0"); AS (port_ref a)])])),
    (map (call_client ports) (if a_loopback a then [client_data a] else [])).
  split; [reflexivity|]. split; [|split].
  - apply resolved_options; [exact Ho|]. apply no_option_key. vm_compute. reflexivity.
  - intros x Nx. rewrite dget_resolve, get_kwargs_other by exact Nx. cbn [dget].
    destruct (eq_dec x (lit "local_addr")); cbn [option_map resolve_kv map]; [rewrite (resolve_ref ports a q Q); reflexivity|reflexivity].
  - intros ->. reflexivity.
Qed.
(** The host of the command line means nothing to a UDP server. *)
Theorem C98_udp_host_refuted : forall a h, a_udp a = true ->
  config_data (mkArgs (a_factory a) (a_udp a) h (a_port a) (a_loopback a) (a_configs a) (a_opt a)) = config_data a.
Proof. intros [f u h0 p l c o] h U. cbn in U. subst u. reflexivity. Qed.
(** The files of the command line are included in their order, after the factories. *)
Theorem C98_includes : forall a, g_includes (config_data a) = lit "package://runtimepy/factories.yaml" :: a_configs a.
Proof. reflexivity. Qed.

(** The names of the port and of the clients tell the factory and the kind, and no two
    commands for different factories or kinds share one. *)
Theorem C98_names : forall a b,
  own_port a = a_factory a ++ (if a_udp a then lit "_udp_port" else lit "_tcp_port") /\
  port_name a (lit "client") = a_factory a ++ (if a_udp a then lit "_udp_client" else lit "_tcp_client") /\
  port_name a (lit "server") = a_factory a ++ (if a_udp a then lit "_udp_server" else lit "_tcp_server") /\
  (own_port a = own_port b -> a_factory a = a_factory b /\ a_udp a = a_udp b) /\
  port_name a (lit "client") <> port_name a (lit "server").
Proof.
  intros a b.
  assert (E : forall x, own_port x = a_factory x ++ (if a_udp x then lit "_udp_port" else lit "_tcp_port")) by (intros x; unfold own_port, port_name; destruct (a_udp x); reflexivity).
  rewrite !E. split; [reflexivity|]. split; [unfold port_name; destruct (a_udp a); reflexivity|]. split; [unfold port_name; destruct (a_udp a); reflexivity|]. split.
  - intros H.
    assert (L : List.length (a_factory a) = List.length (a_factory b)).
    { apply (f_equal (@List.length Z)) in H. rewrite !app_length in H. destruct (a_udp a), (a_udp b); cbn in H; lia. }
    assert (F : a_factory a = a_factory b).
    { apply (f_equal (firstn (List.length (a_factory a)))) in H. rewrite firstn_app, firstn_all, Nat.sub_diag in H. rewrite L, firstn_app, firstn_all, Nat.sub_diag in H. cbn [firstn] in H. rewrite !app_nil_r in H. exact H. }
    split; [exact F|]. rewrite F in H. apply app_inv_head in H. destruct (a_udp a), (a_udp b); try reflexivity; discriminate.
  - unfold port_name. intros H. apply app_inv_head in H. destruct (a_udp a); discriminate.
Qed.

(** ** The loopback client *)
Lemma prefix_of_app p : forall s, prefix_of p s = true <-> exists b, s = p ++ b.
Proof.
  induction p as [|x p IH]; intros s; cbn; [split; [exists s; reflexivity|reflexivity]|]. destruct s as [|y s].
  - split; [discriminate|intros (b & H); discriminate].
  - rewrite andb_true_iff, IH, Z.eqb_eq. split; [intros (-> & b & ->); exists b; reflexivity|intros (b & H); injection H as -> ->; split; [reflexivity|exists b; reflexivity]].
Qed.
Lemma contains_app p : forall s, contains p s = true <-> exists a b, s = a ++ p ++ b.
Proof.
  induction s as [|y s IH]; cbn [contains]; rewrite orb_true_iff, prefix_of_app.
  - split; [intros [(b & H)|H]; [exists [], b; exact H|discriminate]|]. intros (a & b & H). left. destruct a; [exists b; exact H|discriminate].
  - rewrite IH. split.
    + intros [(b & H)|(a & b & H)]; [exists [], b; exact H|exists (y :: a), b; cbn; congruence].
    + intros ([|x a] & b & H); [left; exists b; exact H|right; injection H as -> ->; exists a, b; reflexivity].
Qed.
Lemma join_split c : forall s, join c (split_on c s) = s.
Proof.
  induction s as [|x s IH]; [reflexivity|]. cbn [split_on]. destruct (x =? c) eqn:E.
  - apply Z.eqb_eq in E. subst x. destruct (split_on c s) as [|p ps] eqn:Sp; [destruct s as [|y s]; cbn in Sp; [discriminate|destruct (y =? c); [discriminate|destruct (split_on c s); discriminate]]|].
    change (c :: join c (p :: ps) = c :: s). congruence.
  - destruct (split_on c s) as [|p ps]; [cbn in IH; subst s; reflexivity|]. destruct ps; cbn [join] in *; rewrite <- IH; reflexivity.
Qed.
(** A text none of whose parts is a reference is not changed. *)
Theorem C98_text_unchanged : forall ports s,
  (forall n, In (36 :: n) (split_on 58 s) -> dget n ports = None) -> fix_args ports [AS s] = [AS s].
Proof.
  intros ports s H. cbn [fix_args map]. f_equal. f_equal.
  rewrite <- (join_split 58 s) at 2. f_equal. rewrite <- (map_id (split_on 58 s)) at 2. apply map_ext_in. intros x I.
  destruct x as [|c n]; [reflexivity|]. cbn. destruct (c =? 36) eqn:E; [|reflexivity]. apply Z.eqb_eq in E. subst c. rewrite (H n I). reflexivity.
Qed.

(** There is one more client if it is asked for, and it is made after the servers. *)
Theorem C98_loopback_client : forall a, exists own,
  g_clients (config_data a) = own ++ (if a_loopback a then [client_data a] else []) /\
  List.length own = (if a_udp a then 1 else 0)%nat /\ c_defer (client_data a) = true /\
  c_factory (client_data a) = a_factory a /\ c_name (client_data a) = port_name a (lit "client").
Proof. intros a. unfold config_data. destruct (a_udp a); eexists; (split; [reflexivity|]); repeat split. Qed.
(** It connects to the port of the server. *)
Definition web (a : args) : Prop := exists x y, lower (a_factory a) = x ++ lit "websocket" ++ y.
Theorem C98_loopback_plain : forall a ports q, ~ web a -> dget (own_port a) ports = Some q ->
  c_args (call_client ports (client_data a)) = [] /\
  c_kwargs (call_client ports (client_data a)) =
    if a_udp a then [(lit "remote_addr", KL [AS (lit "localhost"); AI q])]
    else [(lit "host", KA (AS (lit "localhost"))); (lit "port", KA (AI q))].
Proof.
  intros a ports q W Q.
  assert (E : is_websocket a = false).
  { unfold is_websocket. destruct (contains (lit "websocket") (lower (a_factory a))) eqn:C; [|reflexivity]. apply contains_app in C. contradiction. }
  unfold client_data, call_client. cbn [c_args c_kwargs]. rewrite E. split; [reflexivity|].
  pose proof (resolve_ref ports a q Q) as R. destruct (a_udp a); cbn [negb]; unfold resolve_kwargs; cbn [map fst snd resolve_kv]; rewrite R; reflexivity.
Qed.
Lemma uri_fixed ports a q c sch : c <> 36 -> ~ In 58 (c :: sch) -> ~ In 58 (port_ref a) -> dget (own_port a) ports = Some q ->
  fix_args ports (map (resolve ports) [AS ((c :: sch) ++ 58 :: lit "//localhost" ++ 58 :: port_ref a)]) =
  [AS ((c :: sch) ++ 58 :: lit "//localhost" ++ 58 :: dec q)].
Proof.
  intros Nc Ns Nr Q.
  assert (P : forall t, resolve ports (AS ((c :: sch) ++ t)) = AS ((c :: sch) ++ t)).
  { intros t. apply resolve_plain. intros n H. injection H as H _. contradiction. }
  unfold map. rewrite P. unfold fix_args, map at 1. do 2 f_equal.
  rewrite split_on_app by exact Ns. rewrite split_on_app by (vm_compute; intuition discriminate). rewrite split_on_none by exact Nr.
  pose proof (P []) as P0. rewrite app_nil_r in P0. unfold map. rewrite P0, (resolve_ref ports a q Q). reflexivity.
Qed.
Theorem C98_loopback_web : forall a ports q, web a -> ~ In 58 (a_factory a) ->
  dget (own_port a) ports = Some q ->
  exists scheme,
  c_args (call_client ports (client_data a)) = [AS (scheme ++ lit "://localhost:" ++ dec q)] /\
  c_kwargs (call_client ports (client_data a)) = [] /\
  (scheme = lit "wss" <-> exists o, In o [lit "cafile"; lit "capath"; lit "cadata"; lit "certfile"] /\ a_opt a o <> None) /\
  (scheme = lit "ws" \/ scheme = lit "wss").
Proof.
  intros a ports q W Nc Q.
  assert (E : is_websocket a = true) by (apply contains_app; exact W).
  exists (lit "ws" ++ (if is_ssl (get_kwargs a []) then lit "s" else [])).
  unfold client_data, call_client. cbn [c_args c_kwargs]. rewrite E. split; [|split; [reflexivity|split]].
  - assert (Nr : ~ In 58 (port_ref a)).
    { unfold port_ref, port_name. intros [H|H]; [discriminate|]. apply in_app_or in H. destruct H as [H|H]; [contradiction|].
      destruct (a_udp a); vm_compute in H; intuition discriminate. }
    destruct (is_ssl (get_kwargs a [])).
    + apply (uri_fixed ports a q 119 (lit "ss")); auto; vm_compute; intuition discriminate.
    + apply (uri_fixed ports a q 119 (lit "s")); auto; vm_compute; intuition discriminate.
  - assert (X : is_ssl (get_kwargs a []) = true <-> exists o, In o [lit "cafile"; lit "capath"; lit "cadata"; lit "certfile"] /\ a_opt a o <> None).
    { unfold is_ssl. rewrite existsb_exists. split; intros (o & I & H); exists o; (split; [exact I|]).
      - apply dmem_true in H. destruct H as (v & H). rewrite get_kwargs_option in H; [|unfold SSL_PASSTHROUGH in I; unfold ssl_options; cbn [In] in *; tauto|reflexivity]. destruct (a_opt a o); [discriminate|discriminate].
      - apply dmem_true. rewrite get_kwargs_option; [|unfold ssl_options; cbn [In] in *; tauto|reflexivity]. destruct (a_opt a o) as [v|]; [exists (KA (AS v)); reflexivity|congruence]. }
    rewrite <- X. destruct (is_ssl (get_kwargs a [])); split; intros H; try reflexivity; discriminate.
  - destruct (is_ssl (get_kwargs a [])); [right|left]; reflexivity.
Qed.
(** A factory with a colon in its name: the reference in the address is not resolved. *)
Definition ex_opts (l : list (str * str)) : str -> option str := fun o => dget o l.
Definition ex_args (f : string) (udp : bool) (l : list (str * str)) : args := mkArgs (lit f) udp (lit "0.0.0.0") 0 true [] (ex_opts l).
Theorem C98_colon_refuted : exists a ports q, web a /\ dget (own_port a) ports = Some q /\
  c_args (call_client ports (client_data a)) = [AS (lit "ws://localhost:" ++ port_ref a)].
Proof.
  exists (ex_args "my:websocket" false []), [(own_port (ex_args "my:websocket" false []), 8080)], 8080. split; [|split; vm_compute; reflexivity].
  exists (lit "my:"), []. vm_compute. reflexivity.
Qed.

(** ** Certificates *)
Section Ssl.
  Context {V : Type} (truthy : V -> bool).
  Notation handle := (handle_ssl truthy).
  Notation secure k := ((exists v, dget (lit "use_ssl") k = Some v /\ truthy v = true) \/
    exists o, In o [lit "cafile"; lit "capath"; lit "cadata"; lit "certfile"] /\ dget o k <> None).

  Ltac keys := repeat first [rewrite dget_ddel_eq | rewrite dget_ddel_ne by (vm_compute; discriminate)].
  Lemma ssl_cond (k : list (str * V)) :
    (match dget (lit "use_ssl") k with Some v => truthy v | None => false end
     || existsb (fun x => dmem x (ddel (lit "use_ssl") k)) ssl_args || dmem (lit "certfile") (ddel (lit "use_ssl") k)) = true <-> secure k.
  Proof.
    rewrite !orb_true_iff, existsb_exists.
    assert (D : forall o, In o [lit "cafile"; lit "capath"; lit "cadata"; lit "certfile"] -> dmem o (ddel (lit "use_ssl") k) = true <-> dget o k <> None).
    { intros o I. rewrite dmem_true. rewrite dget_ddel_ne.
      - split; [intros (v & ->); discriminate|]. destruct (dget o k) as [v|]; [exists v; reflexivity|congruence].
      - intros ->. revert I. vm_compute. intuition discriminate. }
    split.
    - intros [[H|(o & I & H)]|H].
      + left. destruct (dget (lit "use_ssl") k) as [v|]; [exists v; auto|discriminate].
      + right. exists o. assert (I2 : In o [lit "cafile"; lit "capath"; lit "cadata"; lit "certfile"]) by (unfold ssl_args in I; cbn [In] in *; tauto). split; [exact I2|]. apply D; assumption.
      + right. exists (lit "certfile"). split; [cbn [In]; tauto|]. apply D; [cbn [In]; tauto|exact H].
    - intros [(v & -> & H)|(o & I & H)]; [auto|]. pose proof (proj2 (D o I) H) as M. cbn [In] in I.
      destruct I as [<-|[<-|[<-|[<-|[]]]]]; [left; right|left; right|left; right|right; exact M]; (eexists; split; [|exact M]); unfold ssl_args; cbn [In]; tauto.
  Qed.
  (** A context is made exactly if one is asked for or an authority or a certificate is
      given, for the right side and with what was given. *)
  Theorem C98_ssl_context : forall client (k : list (str * V)),
    (fst (handle client k) <> None <-> secure k) /\
    forall x, fst (handle client k) = Some x ->
      x_client x = client /\ x_ca x = [dget (lit "cafile") k; dget (lit "capath") k; dget (lit "cadata") k] /\
      x_chain x = match dget (lit "certfile") k with Some c => Some (c, dget (lit "keyfile") k) | None => None end.
  Proof.
    intros client k. rewrite <- ssl_cond. unfold handle_ssl. cbv zeta.
    destruct (_ || _ || _) eqn:C.
    - cbn [fold_left ssl_args map]. keys. destruct (dget (lit "certfile") k) as [c|] eqn:E; cbn [fst].
      + split; [split; [reflexivity|discriminate]|]. intros x X. injection X as <-. cbn. keys. repeat split.
      + split; [split; [reflexivity|discriminate]|]. intros x X. injection X as <-. cbn. keys. repeat split.
    - cbn [fst]. split; [split; [congruence|discriminate]|discriminate].
  Qed.
  (** What is left for the connection: everything that is not about certificates. *)
  Theorem C98_ssl_left : forall client (k : list (str * V)) x,
    ~ In x [lit "use_ssl"; lit "cafile"; lit "capath"; lit "cadata"; lit "certfile"; lit "keyfile"; lit "ssl"] ->
    dget x (snd (handle client k)) = dget x k.
  Proof.
    intros client k x N. cbn [In] in N. unfold handle_ssl. cbv zeta.
    assert (D : forall y d, x <> y -> dget x (@ddel str V _ y d) = dget x d) by (intros; apply dget_ddel_ne; assumption).
    destruct (_ || _ || _).
    - cbn [fold_left ssl_args]. destruct (dget (lit "certfile") _); cbn [snd]; rewrite !D by (intros ->; tauto); reflexivity.
    - cbn [snd]. apply D. intros ->. tauto.
  Qed.
  Theorem C98_ssl_consumed : forall client (k : list (str * V)) x,
    In x [lit "use_ssl"; lit "cafile"; lit "capath"; lit "cadata"; lit "certfile"] -> dget x (snd (handle client k)) = None.
  Proof.
    intros client k x I. unfold handle_ssl. cbv zeta. destruct (_ || _ || _) eqn:C.
    - cbn [fold_left ssl_args]. cbn [In] in I.
      destruct I as [<-|[<-|[<-|[<-|[<-|[]]]]]]; match goal with |- context [match ?d with Some _ => _ | None => _ end] => destruct d eqn:E end; cbn [snd]; keys; try reflexivity; revert E; keys; auto.
    - cbn [snd]. destruct (eq_dec x (lit "use_ssl")) as [->|Nu]; [apply dget_ddel_eq|]. rewrite dget_ddel_ne by exact Nu.
      destruct (dget x k) eqn:E; [|reflexivity]. exfalso.
      assert (X : secure k) by (right; exists x; split; [cbn [In] in *; intuition congruence|congruence]).
      apply ssl_cond in X. congruence.
  Qed.
  (** A key is consumed with a certificate and only with one: alone it is left over, for
      an interface that has no such argument. *)
  Theorem C98_keyfile_refuted : forall client (k : list (str * V)),
    dget (lit "keyfile") (snd (handle client k)) = match dget (lit "certfile") k with Some _ => None | None => dget (lit "keyfile") k end.
  Proof.
    intros client k. unfold handle_ssl. cbv zeta. destruct (_ || _ || _) eqn:C.
    - cbn [fold_left ssl_args]. keys. destruct (dget (lit "certfile") k); cbn [snd]; keys; reflexivity.
    - cbn [snd]. keys. destruct (dget (lit "certfile") k) eqn:E; [|reflexivity]. exfalso.
      assert (X : secure k) by (right; exists (lit "certfile"); split; [cbn [In]; tauto|congruence]). apply ssl_cond in X. congruence.
  Qed.
  (** A context that is given stays if none is made, and is replaced otherwise. *)
  Theorem C98_ssl_given : forall client (k : list (str * V)),
    dget (lit "ssl") (snd (handle client k)) = match fst (handle client k) with None => dget (lit "ssl") k | Some _ => None end.
  Proof.
    intros client k. unfold handle_ssl. cbv zeta. destruct (_ || _ || _).
    - match goal with |- context [match ?d with Some _ => _ | None => _ end] => destruct d end; cbn [snd fst]; apply dget_ddel_eq.
    - cbn [snd fst]. keys. reflexivity.
  Qed.
End Ssl.

(** The server of the command uses TLS exactly if an authority or a certificate is given:
    the same condition as for the scheme of the loopback client's address. *)
Theorem C98_server_tls : forall a ports truthy, 
  fst (handle_ssl truthy false (s_kwargs (call_server ports (server_data a)))) <> None <->
  exists o, In o [lit "cafile"; lit "capath"; lit "cadata"; lit "certfile"] /\ a_opt a o <> None.
Proof.
  intros a ports truthy. rewrite (proj1 (C98_ssl_context truthy false _)). cbn [call_server s_kwargs server_data].
  assert (G : forall o, In o ssl_options -> dget o (resolve_kwargs ports (get_kwargs a [(lit "port", KA (AS (port_ref a))); (lit "host", KA (AS (a_host a)))])) =
     option_map (resolve_kv ports) (option_map (fun v => KA (AS v)) (a_opt a o))).
  { intros o I. rewrite dget_resolve, get_kwargs_option; [reflexivity|exact I|]. revert o I. apply no_option_key. reflexivity. }
  split.
  - intros [(v & H & _)|(o & I & H)].
    + exfalso. rewrite dget_resolve, get_kwargs_other in H by (vm_compute; intuition discriminate). discriminate.
    + exists o. split; [exact I|]. rewrite G in H by (unfold ssl_options; cbn [In] in *; tauto). intros X. rewrite X in H. apply H. reflexivity.
  - intros (o & I & H). right. exists o. split; [exact I|]. rewrite G by (unfold ssl_options; cbn [In] in *; tauto). destruct (a_opt a o); [discriminate|congruence].
Qed.
(** The loopback client of a TCP server does not use TLS even if the server does. *)
Theorem C98_loopback_tls_refuted : forall a ports truthy v, ~ web a -> a_udp a = false -> a_opt a (lit "certfile") = Some v ->
  fst (handle_ssl truthy false (s_kwargs (call_server ports (server_data a)))) <> None /\
  fst (handle_ssl truthy true (c_kwargs (call_client ports (client_data a)))) = None.
Proof.
  intros a ports truthy v W U E. split.
  - apply C98_server_tls. exists (lit "certfile"). split; [cbn [In]; tauto|congruence].
  - assert (Ew : is_websocket a = false).
    { unfold is_websocket. destruct (contains (lit "websocket") (lower (a_factory a))) eqn:C; [|reflexivity]. apply contains_app in C. contradiction. }
    unfold call_client, client_data. cbn [c_kwargs]. rewrite Ew, U. reflexivity.
Qed.

(** ** Cases *)
Definition ex_tcp : args := ex_args "tcp_null" false [(lit "certfile", lit "a.pem")].
Definition ex_os (i : nat) (h : str) (p : Z) (tcp : bool) : option Z := if p =? 0 then Some (50000 + Z.of_nat i) else if p <? 1024 then None else Some p.
Example C98_ports_case :
  assign ex_os [(lit "b", 8080)] 0 (mkPort (lit "a") [] 0 true :: g_ports (config_data ex_tcp) ++ [mkPort (lit "b") [] 7 false]) [] =
    Some ([mkPort (lit "a") [] 50000 true; mkPort (lit "tcp_null_tcp_port") [] 50001 true; mkPort (lit "b") [] 8080 false],
          [(lit "a", 50000); (lit "tcp_null_tcp_port", 50001); (lit "b", 8080)]) /\
  assign ex_os [] 0 [mkPort (lit "b") [] 7 false] [] = None /\ others ex_tcp [mkPort (lit "b") [] 7 false].
Proof. repeat split. intros it [<-|[]]. vm_compute. discriminate. Qed.
Example C98_tcp_case :
  map (call_server [(own_port ex_tcp, 8080)]) (g_servers (config_data ex_tcp)) =
    [mkServer (lit "tcp_null") [(lit "port", KA (AI 8080)); (lit "host", KA (AS (lit "0.0.0.0"))); (lit "certfile", KA (AS (lit "a.pem")))]] /\
  plain (a_host ex_tcp) /\ plain_options ex_tcp /\ ~ web ex_tcp.
Proof.
  split; [vm_compute; reflexivity|]. split; [intros n; vm_compute; discriminate|]. split.
  - intros o v I H n. unfold ex_tcp, ex_args, ex_opts in H. cbn [a_opt dget] in H. destruct (eq_dec o (lit "certfile")); [|discriminate]. injection H as <-. vm_compute. discriminate.
  - intros (x & y & H). assert (C : is_websocket ex_tcp = true) by (apply contains_app; exists x, y; exact H). vm_compute in C. discriminate.
Qed.
Example C98_web_case :
  let a := ex_args "Websocket_null" false [(lit "certfile", lit "a.pem")] in
  web a /\ ~ In 58 (a_factory a) /\
  c_args (call_client [(own_port a, 8080)] (client_data a)) = [AS (lit "wss://localhost:8080")].
Proof. split; [exists [], (lit "_null"); vm_compute; reflexivity|]. split; [vm_compute; intuition discriminate|vm_compute; reflexivity]. Qed.
Example C98_udp_case :
  let a := ex_args "udp_null" true [] in
  map (call_client [(own_port a, 8080)]) (g_clients (config_data a)) =
    [mkClient (lit "udp_null_udp_server") false (lit "udp_null") [] [(lit "local_addr", KL [AS (lit "0.0.0.0"); AI 8080])];
     mkClient (lit "udp_null_udp_client") true (lit "udp_null") [] [(lit "remote_addr", KL [AS (lit "localhost"); AI 8080])]].
Proof. vm_compute. reflexivity. Qed.
Example C98_ssl_case :
  handle_ssl (fun b : bool => b) true [(lit "port", true); (lit "cafile", true); (lit "keyfile", false)] =
    (Some (mkCtx true [Some true; None; None] None), [(lit "port", true); (lit "keyfile", false)]) /\
  handle_ssl (fun b : bool => b) true [(lit "use_ssl", false)] = (None, []).
Proof. split; vm_compute; reflexivity. Qed.
Print Assumptions C98_ports_items.
Print Assumptions C98_ports_names.
Print Assumptions C98_ports_fail.
Print Assumptions C98_duplicate_port_refuted.
Print Assumptions C98_own_port.
Print Assumptions C98_tcp_server.
Print Assumptions C98_udp_server.
Print Assumptions C98_udp_host_refuted.
Print Assumptions C98_includes.
Print Assumptions C98_text_unchanged.
Print Assumptions C98_loopback_client.
Print Assumptions C98_loopback_plain.
Print Assumptions C98_loopback_web.
Print Assumptions C98_colon_refuted.
Print Assumptions C98_ssl_context.
Print Assumptions C98_ssl_left.
Print Assumptions C98_ssl_consumed.
Print Assumptions C98_keyfile_refuted.
Print Assumptions C98_ssl_given.
Print Assumptions C98_server_tls.
Print Assumptions C98_loopback_tls_refuted.
Print Assumptions C98_names.
