(** C89: commands sent as POST requests. *)
From Coq Require Import Ascii Lia ZifyBool ZifyNat.
From Verif Require Import Base BaseLemmas PyStrModel PyStrProofs HttpModel ServeModel EnvModel EnvProps CmdLineModel CmdLineSpec CmdLineProps PostModel PostSpec PostProofs.
Open Scope list_scope.
Open Scope Z_scope.

Section Params.
  Context (neg : string -> bool) (space : ascii -> bool) (defer strip_all : bool).
  Context (int_of : string -> option Z) (float_of : string -> option flo)
    (bool_of : string -> option bool) (fround : PrimModel.kind -> flo -> flo).
  Notation command := (command neg space defer strip_all int_of float_of bool_of fround).
  Notation handle := (handle int_of float_of bool_of fround).
  Notation serve := (serve_lines neg space defer strip_all int_of float_of bool_of fround).
  Notation run := (run neg space defer strip_all int_of float_of bool_of fround).
  Notation step := (step neg space defer strip_all int_of float_of bool_of fround).

  (** C89.  A POST request for "/name/word/.../word" runs the line of the words in
      the environment registered as [name], whatever the query and the header
      fields are: that environment and no other changes, its hooks are called,
      and the answer repeats the command and reports its reply. *)
  Theorem C89_runs : forall w n i ws q hs, sound w -> registered w n i ->
    Forall plain (n :: ws) -> query q -> headers_ok hs ->
    did (fun h e => command h e (String.concat " " (map text ws))) w i (n :: ws) (serve w (post_line (n :: ws) q :: hs)).
  Proof. intros * S R F Q H. rewrite serve_plain by assumption. apply hc_ran; assumption. Qed.

  (** C89.  When the words are words of a command line (no white space) and do not
      include "--", the effect is that of the arguments the words say. *)
  Theorem C89_words : forall w n i ws q hs a e, neg_ok neg -> space " "%char = true -> sound w -> registered w n i ->
    Forall plain (n :: ws) -> query q -> headers_ok hs ->
    Forall (word space) (map text ws) -> ~ In "--"%string (map text ws) ->
    line_says neg defer (map text ws) a e ->
    did (fun h v => handle h v a) w i (n :: ws) (serve w (post_line (n :: ws) q :: hs)).
  Proof.
    intros * NOK Sp S R F Q H W D L.
    destruct (C89_runs w n i ws q hs S R F Q H) as (p & e' & r & calls & P & C & O & RP & CA).
    exists p, e', r, calls. split; [exact P|]. split; [|auto].
    pose proof (proj2 (C80_words space) _ W Sp) as WE.
    destruct (C80_command neg space defer strip_all int_of float_of bool_of fround (pr_hooks p) (pr_env p)
      (String.concat " " (map text ws)) NOK) as [G _]; [rewrite WE; exact D|].
    cbv beta in *. rewrite <- C. symmetry. apply (G a e). rewrite WE. exact L.
  Qed.

  (** C89.  A request that names no environment, or one that is not registered, is
      answered with the names that are, and changes nothing. *)
  Theorem C89_refused : forall w parts q hs, Forall plain parts -> query q -> headers_ok hs ->
    (forall n ws, parts = n :: ws -> ~ known w n) ->
    refused w parts (serve w (post_line parts q :: hs)).
  Proof. intros * F Q H N. rewrite serve_plain by assumption. apply hc_refused, N. Qed.

  (** C89.  Whatever is sent: either nothing changes and no hook is called, or it is
      a POST request for a path and one registered environment runs a command line, the words of which have no "/"
      and no "?" in them. *)
  Theorem C89_nothing_else : forall w lines, sound w -> bytes_only lines ->
    (fst (fst (serve w lines)) = w /\ snd (serve w lines) = []) \/
    exists n i ws line args, registered w n i /\ words space line = ws /\ Forall (word space) ws /\ Forall sayable ws /\
      (exists path v hs, lines = (lit "POST /" ++ path ++ 32 :: v) :: hs) /\
      did (fun h e => command h e line) w i (n :: args) (serve w lines).
  Proof.
    intros * S B. destruct (serve_cases neg space defer strip_all int_of float_of bool_of fround w lines S B) as [H|(n & i & ws & args & R & F & W & L & line & E & D)]; [left; exact H|].
    right. exists n, i, ws, line, args. auto 10.
  Qed.

  (** C89.  Conversely every line of words without "/" and "?" can be run by some
      request (words that are "." have to be sent behind a tab). *)
  Theorem C89_everything_else : forall w n i ws, sound w -> registered w n i -> plain n ->
    space " "%char = true -> space "009"%char = true -> Forall (word space) ws -> Forall sayable ws ->
    exists lines line args, words space line = ws /\
      did (fun h e => command h e line) w i (n :: args) (serve w lines).
  Proof.
    intros * S R P Sp St W F.
    destruct (serve_say neg space defer strip_all int_of float_of bool_of fround w n i ws S R P Sp St F W) as (line & args & E & D).
    eauto.
  Qed.

  (** C89.  What is not transmitted: words that are empty or ".", the difference
      between a "/" in a word and the end of the word, and what follows a "?". *)
  Theorem C89_not_transmitted : forall w a b q hs, Forall (fun x => ~ In 47 x /\ ~ In 63 x /\ ~ In 32 x) (a ++ b) -> query q -> headers_ok hs ->
    (forall x, x = [] \/ x = lit "." -> serve w (post_line (a ++ x :: b) q :: hs) = serve w (post_line (a ++ b) q :: hs)) /\
    (forall x y, post_line (a ++ (x ++ 47 :: y) :: b) q = post_line (a ++ x :: y :: b) q) /\
    (forall x y, ~ In 32 x -> ~ In 63 x -> ~ In 47 x -> ~ In 32 y -> ~ In 32 q ->
       serve w (post_line (a ++ (x ++ 63 :: y) :: b) q :: hs) = serve w (post_line (a ++ [x]) [] :: hs)).
  Proof.
    intros * F Q H. split; [|split].
    - intros x X. rewrite !serve_parts; try assumption.
      + rewrite !filter_app. cbn [filter]. destruct X as [->| ->]; reflexivity.
      + apply Forall_app in F. destruct F as [Fa Fb]. apply Forall_app. split; [exact Fa|]. constructor; [|exact Fb].
        destruct X as [->| ->]; cbn; lia.
    - intros x y. unfold post_line. f_equal. f_equal.
      assert (forall u v (z : list str), join 47 ((u ++ 47 :: v) :: z) = join 47 (u :: v :: z)) as G.
      { intros u v z. destruct z as [|z0 z]; [reflexivity|].
        change (join 47 ((u ++ 47 :: v) :: z0 :: z)) with ((u ++ 47 :: v) ++ 47 :: join 47 (z0 :: z)).
        change (join 47 (u :: v :: z0 :: z)) with (u ++ 47 :: v ++ 47 :: join 47 (z0 :: z)). rewrite <- app_assoc. reflexivity. }
      clear - G. induction a as [|c a IH]; [apply G|]. cbn [app].
      destruct a as [|d a].
      + cbn [app]. change (join 47 (c :: (x ++ 47 :: y) :: b)) with (c ++ 47 :: join 47 ((x ++ 47 :: y) :: b)). rewrite G. reflexivity.
      + cbn [app] in *. change (c ++ 47 :: join 47 (d :: a ++ (x ++ 47 :: y) :: b) = c ++ 47 :: join 47 (d :: a ++ x :: y :: b)). rewrite IH. reflexivity.
    - intros x y X1 X2 X3 Y Q2. apply Forall_app in F. destruct F as [Fa Fb].
      assert (forall z, exists t, join 47 (a ++ (x ++ 63 :: z) :: b) = join 47 (a ++ [x]) ++ 63 :: t /\ (~ In 32 z -> ~ In 32 t)) as G.
      { intros z. clear - Fa Fb. induction Fa as [|c a C Fa IH].
        - cbn [app join]. destruct b as [|d b].
          + exists z. split; [reflexivity|auto].
          + exists (z ++ 47 :: join 47 (d :: b)). split; [change (join 47 ((x ++ 63 :: z) :: d :: b)) with ((x ++ 63 :: z) ++ 47 :: join 47 (d :: b)); rewrite <- app_assoc; reflexivity|].
            intros Z I. apply in_app_or in I. destruct I as [I|[I|I]]; [apply Z, I|lia|]. revert I. apply join_free; [lia|]. eapply Forall_impl; [|exact Fb]. cbv beta. tauto.
        - destruct IH as (t & E & T). exists t. split; [|exact T].
          assert (forall l m, m <> [] -> join 47 (c :: l ++ m) = c ++ 47 :: join 47 (l ++ m)) as J by (intros l [|m0 m] M; [congruence|]; destruct l; reflexivity).
          cbn [app]. rewrite (J a (_ :: b)) by discriminate. rewrite (J a [x]) by discriminate. rewrite E, <- app_assoc. reflexivity. }
      destruct (G y) as (t & E & T). specialize (T Y).
      unfold post_line. rewrite E.
      replace (lit "POST /" ++ (join 47 (a ++ [x]) ++ 63 :: t) ++ q ++ lit " HTTP/1.1") with (lit "POST /" ++ join 47 (a ++ [x]) ++ (63 :: t ++ q) ++ lit " HTTP/1.1")
        by (rewrite <- !app_assoc; cbn [app]; rewrite <- !app_assoc; reflexivity).
      assert (Forall (fun k => ~ In 47 k /\ ~ In 63 k /\ ~ In 32 k) (a ++ [x])) as Fx by (apply Forall_app; split; [exact Fa|repeat constructor; assumption]).
      rewrite (serve_post neg space defer strip_all int_of float_of bool_of fround w (join 47 (a ++ [x])) (63 :: t ++ q) hs).
      + rewrite (serve_post neg space defer strip_all int_of float_of bool_of fround w (join 47 (a ++ [x])) [] hs); [reflexivity| | |left; reflexivity|exact H];
          (apply join_free; [lia|]; eapply Forall_impl; [|exact Fx]; cbv beta; tauto).
      + apply join_free; [lia|]. eapply Forall_impl; [|exact Fx]. cbv beta. tauto.
      + apply join_free; [lia|]. eapply Forall_impl; [|exact Fx]. cbv beta. tauto.
      + right. split; [eauto|]. intros [I|I]; [lia|]. apply in_app_or in I. destruct I as [I|I]; [apply T, I|apply Q2, I].
      + exact H.
  Qed.

  (** C89.  After any history of registrations, clearings and requests, a name stands
      for the processor it was first registered for since the names were last
      cleared; a second registration returns for the same processor only. *)
  Theorem C89_registered : forall w pre post n i, w_names w = [] ->
    (pre = [] \/ exists a, pre = a ++ [Clear]) -> ~ In Clear post ->
    (registered (run w (pre ++ post)) n i <-> first_reg post n i).
  Proof. intros *. apply run_reset. Qed.

  Theorem C89_register : forall w n i, sound w ->
    (snd (register w n i) = true <-> forall j, registered w n j -> j = i) /\
    (snd (register w n i) = false -> fst (register w n i) = w).
  Proof.
    intros w n i [N _]. unfold register. destruct (find_name n (w_names w)) as [k|] eqn:E; cbn [fst snd].
    - split; [|reflexivity]. rewrite Nat.eqb_eq. split.
      + intros -> j J. rewrite (In_find _ _ _ N J) in E. congruence.
      + intros H. symmetry. apply H. apply find_In, E.
    - split; [|discriminate]. split; [|reflexivity]. intros _ j J. exfalso. apply (find_none _ _ E j J).
  Qed.

  Theorem C89_sound : forall w os, sound w -> (forall n i, In (Register n i) os -> (i < List.length (w_procs w))%nat) -> sound (run w os).
  Proof. intros *. apply run_sound. Qed.
End Params.
Print Assumptions C89_runs.
Print Assumptions C89_words.
Print Assumptions C89_refused.
Print Assumptions C89_nothing_else.
Print Assumptions C89_everything_else.
Print Assumptions C89_not_transmitted.
Print Assumptions C89_registered.
Print Assumptions C89_register.
Print Assumptions C89_sound.

Definition xserve := serve_lines ex_neg ex_space true false xint (fun _ => None) xbool (fun _ f => f).
Definition ex_world : world :=
  mkWorld [(lit "app", 0%nat); (lit "io", 1%nat)] [mkProc demo [7%nat]; mkProc demo []].
Example ex_sound : sound ex_world.
Proof.
  split.
  - repeat constructor; cbn; intuition discriminate.
  - intros n i [[= <- <-]|[[= <- <-]|[]]]; cbn; lia.
Qed.
Definition ex_parts : list str := [lit "app"; lit "set"; lit "level"; lit "7"; lit "-f"].
Example ex_plain : Forall plain ex_parts /\ query (lit "?a=b") /\ headers_ok [lit "host: x"] /\ registered ex_world (lit "app") 0.
Proof.
  split; [repeat constructor; try discriminate; cbn; intuition lia|]. split; [right; split; [eexists; reflexivity|cbn; intuition lia]|].
  split; [eexists; reflexivity|]. left. reflexivity.
Qed.
Example ex_posts :
  let '(w, out, calls) := xserve ex_world [post_line ex_parts (lit "?a=b"); lit "host: x"] in
  match nth_error (w_procs w) 0 with Some p => e_value (pr_env p) (inl "level"%string) true true = Ok (CNum (NInt 7)) | None => False end /\
  nth_error (w_procs w) 1 = Some (mkProc demo []) /\
  out = OResp 200 (Some (mkBody ex_parts true (Some CSuccess) None)) /\ map fst calls = [7%nat] /\
  snd (fst (xserve ex_world [post_line [lit "nobody"; lit "get"] []])) =
    OResp 200 (Some (mkBody [lit "nobody"; lit "get"] false None (Some [lit "app"; lit "io"]))).
Proof. vm_compute. repeat split. Qed.
Example ex_words_ok : Forall (word ex_space) (map text (tl ex_parts)) /\ ~ In "--"%string (map text (tl ex_parts)) /\
  parse ex_neg true false (map text (tl ex_parts)) = Some (mkArgs VSet true false "level" ["7"%string], "default"%string).
Proof.
  split; [|split; [cbn; intuition discriminate|vm_compute; reflexivity]].
  cbn [ex_parts tl map]. repeat constructor; try discriminate; intros c H; cbn [text lit list_ascii_of_string] in H; vm_compute in H;
    repeat (destruct H as [<-|H]; [reflexivity|]); destruct H.
Qed.
(** A word that is "." behind a tab. *)
Example ex_dot : Forall sayable ["set"; "."]%string /\
  parts_of (join 47 [lit "app"; tabbed ["set"; "."]%string]) = [lit "app"; tabbed ["set"; "."]%string] /\
  words ex_space (text (tabbed ["set"; "."]%string)) = ["set"; "."]%string.
Proof. split; [repeat constructor; cbn; intuition discriminate|]. vm_compute. split; reflexivity. Qed.
Example ex_history :
  let os := [Register (lit "a") 0; Clear; Register (lit "b") 1; Register (lit "a") 1; Register (lit "b") 0]%nat in
  w_names (run ex_neg ex_space true false xint (fun _ => None) xbool (fun _ f => f) (mkWorld [] (w_procs ex_world)) os) =
    [(lit "b", 1%nat); (lit "a", 1%nat)].
Proof. vm_compute. reflexivity. Qed.

(** C89.  Not every command sent to a registered environment is answered: a command
    that raises (reading a channel whose value its enumeration does not name) ends
    the request, and with it the connection's reading task, without a response. *)
Theorem C89_answered_refuted :
  ~ (forall w parts, sound w -> Forall plain parts -> (exists n ws, parts = n :: ws /\ known w n) ->
       exists status b, snd (fst (xserve w [post_line parts []])) = OResp status b).
Proof.
  intros H. destruct (H ex_world [lit "app"; lit "get"; lit "mode"] ex_sound) as (st & b & E).
  - repeat constructor; try discriminate; cbn; intuition lia.
  - exists (lit "app"), [lit "get"; lit "mode"]. split; [reflexivity|]. exists 0%nat. left. reflexivity.
  - revert E. vm_compute. discriminate.
Qed.
Print Assumptions C89_answered_refuted.

(** C89.  Not every command line can be sent: a word with a "/" arrives as two. *)
Theorem C89_slash_refuted :
  ~ (forall n ws, Forall (word ex_space) (map text ws) -> n = lit "app" ->
       exists q, query q /\ snd (fst (xserve ex_world [post_line (n :: ws) q])) =
         OResp 200 (Some (mkBody (n :: ws) true (Some CSuccess) None))).
Proof.
  intros H. destruct (H (lit "app") [lit "custom"; lit "load"; lit "a/b"]) as (q & Q & E).
  - cbn [map]. repeat constructor; try discriminate; intros c C; vm_compute in C; repeat (destruct C as [<-|C]; [reflexivity|]); destruct C.
  - reflexivity.
  - unfold xserve in E.
    assert (post_line [lit "app"; lit "custom"; lit "load"; lit "a/b"] q = post_line [lit "app"; lit "custom"; lit "load"; lit "a"; lit "b"] q) as X by reflexivity.
    rewrite X in E. rewrite serve_plain in E; [|repeat constructor; try discriminate; cbn; intuition lia|exact Q|exists []; reflexivity].
    revert E. vm_compute. discriminate.
Qed.
Print Assumptions C89_slash_refuted.
