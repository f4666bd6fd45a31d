(** Lemmas for TelnetProps.v. *)
From Verif Require Import Base BaseLemmas Utf8Model Utf8Proofs TelnetModel TelnetSpec.
From Coq Require Import ZifyBool ZifyNat.

Lemma scan_item i : item_ok i -> forall rs t rest,
  scan MData rs t (item_bytes i ++ rest)
  = scan MData (rs ++ item_report i) (t ++ item_text i) rest.
Proof.
  intros H rs t rest. destruct i as [b| |b|c|c o]; cbn in H;
    cbn [item_bytes item_report item_text app scan];
    rewrite ?app_nil_r.
  - destruct H as [H1 H2]. unfold IAC.
    replace (b =? 255) with false by lia.
    destruct (is_nvt b) eqn:N; [|reflexivity].
    destruct (to_stream b) eqn:T; [reflexivity|exfalso].
    apply H2. unfold is_nvt in N. unfold to_stream in T. lia.
  - reflexivity.
  - assert (E : b =? IAC = false) by (unfold IAC; lia). rewrite E.
    assert (E2 : is_nvt b = true) by (unfold is_nvt; lia). rewrite E2.
    assert (E3 : to_stream b = false) by (unfold to_stream; lia). rewrite E3.
    reflexivity.
  - rewrite Z.eqb_refl.
    assert (E : is_option_code c = false) by (unfold is_option_code; lia). rewrite E.
    assert (E2 : c =? IAC = false) by (unfold IAC; lia). rewrite E2.
    assert (E3 : is_telnet_code c = true) by (unfold is_telnet_code; lia). rewrite E3.
    reflexivity.
  - rewrite Z.eqb_refl.
    assert (E : is_option_code c = true) by (unfold is_option_code; lia). rewrite E.
    reflexivity.
Qed.

Lemma scan_items l : Forall item_ok l -> forall rs t rest,
  scan MData rs t (bytes_of l ++ rest)
  = scan MData (rs ++ reports_of l) (t ++ text_of l) rest.
Proof.
  induction 1 as [|i l Hi Hl IH]; intros rs t rest.
  - cbn. rewrite !app_nil_r. reflexivity.
  - cbn [bytes_of flat_map reports_of text_of]. rewrite <- app_assoc, scan_item by exact Hi.
    fold (bytes_of l). rewrite IH. rewrite !app_assoc. reflexivity.
Qed.

Lemma scan_unfinished r rs t : unfinished r ->
  exists m, scan MData rs t r = SDone m rs t.
Proof.
  intros [->|[c [H ->]]]; cbn [scan].
  - exists MCommand. reflexivity.
  - exists (MOption c). rewrite Z.eqb_refl.
    assert (E : is_option_code c = true) by (unfold is_option_code; lia). rewrite E.
    reflexivity.
Qed.

(** Every byte string is items, then nothing, an unfinished item, or IAC and a
    byte that is no telnet code. *)
Lemma parse data : is_bytes data ->
  exists l rest, Forall item_ok l /\ data = bytes_of l ++ rest /\
    (rest = [] \/ unfinished rest \/ exists c r, 0 <= c < 240 /\ rest = 255 :: c :: r).
Proof.
  remember (List.length data) as n eqn:E. revert data E.
  induction n as [n IH] using (well_founded_induction lt_wf).
  intros data E H. destruct data as [|v data].
  { exists [], []. cbn. auto. }
  inversion H as [|? ? Hv Hd]; subst. unfold is_byte in Hv.
  destruct (Z.eq_dec v 255) as [->|Nv].
  - destruct data as [|c data].
    { exists [], [255]. split; [constructor|]. split; [reflexivity|]. right; left; left; reflexivity. }
    inversion Hd as [|? ? Hc Hd']; subst. unfold is_byte in Hc.
    destruct (Z_lt_ge_dec c 240) as [A|A].
    { exists [], (255 :: c :: data). cbn. split; [auto|]. split; [auto|].
      right; right. exists c, data. split; [lia|reflexivity]. }
    destruct (Z_le_gt_dec c 250) as [B|B].
    { destruct (IH (List.length data) ltac:(cbn; lia) data eq_refl Hd')
        as [l [rest [Hl [-> Hr]]]].
      exists (ICommand c :: l), rest. split; [constructor; [cbn; lia|exact Hl]|].
      split; [reflexivity|exact Hr]. }
    destruct (Z.eq_dec c 255) as [->|C].
    { destruct (IH (List.length data) ltac:(cbn; lia) data eq_refl Hd')
        as [l [rest [Hl [-> Hr]]]].
      exists (IEscape :: l), rest. split; [constructor; [exact I|exact Hl]|].
      split; [reflexivity|exact Hr]. }
    destruct data as [|o data].
    { exists [], [255; c]. cbn. split; [auto|]. split; [auto|]. right; left. right.
      exists c. split; [lia|reflexivity]. }
    inversion Hd' as [|? ? Ho Hd'']; subst. unfold is_byte in Ho.
    destruct (IH (List.length data) ltac:(cbn; lia) data eq_refl Hd'')
      as [l [rest [Hl [-> Hr]]]].
    exists (IOption c o :: l), rest. split; [constructor; [cbn; lia|exact Hl]|].
    split; [reflexivity|exact Hr].
  - destruct (IH (List.length data) ltac:(cbn; lia) data eq_refl Hd)
      as [l [rest [Hl [-> Hr]]]].
    destruct (in_dec Z.eq_dec v [0; 7; 8; 11; 12]) as [B|B].
    + exists (INvt v :: l), rest. split; [constructor; [exact B|exact Hl]|].
      split; [reflexivity|exact Hr].
    + exists (IData v :: l), rest. split; [constructor; [cbn -[In]; split; [lia|exact B]|exact Hl]|].
      split; [reflexivity|exact Hr].
Qed.

(** A 255 never occurs in UTF-8. *)
Lemma decode_255 : forall l, In 255 l -> utf8_decode l = None.
Proof.
  intros l. remember (List.length l) as n eqn:E. revert l E.
  induction n as [n IH] using (well_founded_induction lt_wf).
  intros l E H. destruct l as [|b0 l1]; [destruct H|]. cbn [utf8_decode].
  destruct (Z.eq_dec b0 255) as [->|N0]; [reflexivity|].
  destruct H as [->|H]; [contradiction|].
  destruct (b0 <? 128).
  { rewrite (IH (List.length l1)); [reflexivity|subst; cbn; lia|reflexivity|exact H]. }
  destruct ((194 <=? b0) && (b0 <=? 223)).
  { destruct l1 as [|b1 l2]; [reflexivity|]. destruct (is_cont b1) eqn:C; [|reflexivity].
    destruct H as [->|H]; [discriminate|].
    rewrite (IH (List.length l2)); [reflexivity|subst; cbn; lia|reflexivity|exact H]. }
  destruct ((224 <=? b0) && (b0 <=? 239)).
  { destruct l1 as [|b1 [|b2 l3]]; try reflexivity.
    destruct (is_cont b1) eqn:C1; [|reflexivity]. destruct (is_cont b2) eqn:C2; [|reflexivity].
    cbn [andb]. destruct H as [->|[->|H]]; [discriminate|discriminate|].
    match goal with |- (if ?c then _ else _) = _ => destruct c end; [|reflexivity].
    rewrite (IH (List.length l3)); [reflexivity|subst; cbn; lia|reflexivity|exact H]. }
  destruct ((240 <=? b0) && (b0 <=? 244)); [|reflexivity].
  destruct l1 as [|b1 [|b2 [|b3 l4]]]; try reflexivity.
  destruct (is_cont b1) eqn:C1; [|reflexivity]. destruct (is_cont b2) eqn:C2; [|reflexivity].
  destruct (is_cont b3) eqn:C3; [|reflexivity]. cbn [andb].
  destruct H as [->|[->|[->|H]]]; try discriminate.
  match goal with |- (if ?c then _ else _) = _ => destruct c end; [|reflexivity].
  rewrite (IH (List.length l4)); [reflexivity|subst; cbn; lia|reflexivity|exact H].
Qed.

Lemma process_items l rest m rs t :
  Forall item_ok l ->
  scan MData (reports_of l) (text_of l) rest = SDone m rs t ->
  process_binary (bytes_of l ++ rest)
  = match t with
    | [] => TOk rs None
    | _ => match utf8_decode t with Some s => TOk rs (Some s) | None => TBadText rs end
    end.
Proof.
  intros H E. unfold process_binary. rewrite (scan_items l H [] [] rest). cbn [app].
  rewrite E. reflexivity.
Qed.
