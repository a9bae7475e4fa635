(** The model with messages is the model without them, and the messages for values. *)
From Coq Require Import String Ascii ZArith Bool List Lia.
From Verif Require Import Base Lib GoStrings Strtok Tokeniser SpecContent GoTime Types Params ParamTable PropTable Props SecTable Sections Codec LabelTable Messages SpecMessage.
Import ListNotations.

(** ** The names *)
Lemma sec_names id : sec_label id = comp_word id.
Proof. destruct id; reflexivity. Qed.
Lemma prop_names p : prop_label p = prop_word p.
Proof. destruct p; reflexivity. Qed.
Lemma param_names q : param_label q = param_word q.
Proof. destruct q; reflexivity. Qed.
Lemma field_names t : field_label t = field_word t.
Proof. destruct t; cbn [field_label field_word]; [apply prop_names|apply sec_names|reflexivity]. Qed.
Lemma kind_names pid ps vs w k : snd (prop_spec pid) = MStruct ps vs -> In (w, k) vs -> kind_label k = kind_word k.
Proof.
  intros E H. destruct pid; cbn [prop_spec snd] in E; try discriminate E; injection E as <- <-;
    repeat (destruct H as [H|H]; [injection H as <- <-; reflexivity|]); destruct H.
Qed.

(** ** Without the messages *)
Definition erase {A} (r : mres A) : res A := match r with MOk a => Ok a | MErr m => Err (root m) | MPanic => Panic | MNoFuel => NoFuel end.
Lemma erase_lift {A} mk (r : res A) : (forall e, root (mk e) = e) -> erase (lift mk r) = r.
Proof. intros H. destruct r; cbn [lift erase]; rewrite ?H; reflexivity. Qed.
Lemma erase_wrap {A} w (r : mres A) : erase (wrap w r) = erase r.
Proof. destruct r; reflexivity. Qed.
Lemma erase_bind {A B} (r : mres A) (k : A -> mres B) : erase (mbind r k) = bind (erase r) (fun a => erase (k a)).
Proof. destruct r; reflexivity. Qed.
Lemma bind_ext {A B} (r r' : res A) (k k' : A -> res B) : r = r' -> (forall a, k a = k' a) -> bind r k = bind r' k'.
Proof. intros -> H. destruct r'; cbn [bind]; auto. Qed.
Lemma erase_ok {A} (r : mres A) a : erase r = Ok a -> r = MOk a.
Proof. destruct r; cbn [erase]; intros H; try discriminate. apply Ok_inj in H. congruence. Qed.
Lemma erase_err {A} (r : mres A) e : erase r = Err e -> exists m, r = MErr m /\ root m = e.
Proof. destruct r; cbn [erase]; intros H; try discriminate. injection H as <-. eauto. Qed.
Lemma erase_panic {A} (r : mres A) : erase r = Panic -> r = MPanic.
Proof. destruct r; cbn [erase]; intros H; congruence. Qed.
Lemma erase_nofuel {A} (r : mres A) : erase r = NoFuel -> r = MNoFuel.
Proof. destruct r; cbn [erase]; intros H; congruence. Qed.

Section Messages.
Context {env : Env}.

Lemma root_std t e : root (std_says t e) = e.
Proof. destruct e; reflexivity. Qed.
Lemma root_datetime m d e : root (datetime_msg m d e) = e.
Proof. unfold datetime_msg. destruct (pmap_get _ _); [destruct (load_location _ _)|destruct (ends_with _ _)]; apply root_std. Qed.
Lemma root_clock m d e : root (clock_msg m d e) = e.
Proof. unfold clock_msg. destruct (pmap_get _ _); [destruct (load_location _ _)|destruct (ends_with _ _)]; apply root_std. Qed.
Lemma root_value k m d e : root (value_msg k m d e) = e.
Proof.
  destruct k; cbn [value_msg]; try reflexivity; try apply root_std; try apply root_datetime; try apply root_clock.
  - unfold tfloat_msg. destruct (cut _ _) as [[a b]|]; [|reflexivity]. destruct (parse_float a); apply root_std.
  - unfold period_msg. destruct (cut _ _) as [[a [|c b]]|]; try reflexivity. destruct (datetime_decode 0 m a); [destruct (_ || _)|..]; cbn [root]; first [apply root_std|apply root_datetime].
Qed.
Lemma root_param k e : root (param_msg k e) = e.
Proof. destruct k; cbn [param_msg]; first [reflexivity|apply root_std]. Qed.

Lemma value_erase k m d : erase (value_decode_m k m d) = value_decode k m d.
Proof. apply erase_lift, root_value. Qed.
Lemma param_erase p vs : erase (param_decode_m p vs) = param_decode (pkind_of p) vs.
Proof. unfold param_decode_m. rewrite erase_wrap. apply erase_lift, root_param. Qed.
Lemma struct_param_erase pid ps vs st g : erase (struct_param_m pid ps vs st g) = struct_param ps vs st g.
Proof.
  destruct g as [n tv]. unfold struct_param_m, struct_param. destruct (param_index n ps) as [i|].
  - destruct (nth i (ps_params st) None); [reflexivity|]. rewrite erase_bind. apply bind_ext; [rewrite erase_wrap; apply param_erase|reflexivity].
  - destruct (_ && _); [|reflexivity]. destruct tv as [|t [|]]; try reflexivity. destruct (ps_vtype st); [reflexivity|]. destruct (index_of _ _); reflexivity.
Qed.
Lemma struct_params_erase pid ps vs : forall gs st, erase (struct_params_m pid ps vs st gs) = struct_params ps vs st gs.
Proof.
  induction gs as [|g gs IH]; intros st; [reflexivity|]. cbn [struct_params_m struct_params]. rewrite erase_bind. apply bind_ext; [apply struct_param_erase|exact IH].
Qed.
Lemma prop_erase pid params d : erase (prop_decode_m pid params d) = prop_decode pid params d.
Proof.
  unfold prop_decode_m, prop_decode. destruct (snd (prop_spec pid)) as [ps vs|ws|k].
  - rewrite erase_bind. apply bind_ext; [apply struct_params_erase|]. intros st. cbv zeta. rewrite erase_bind. apply bind_ext; [rewrite erase_wrap; apply value_erase|reflexivity].
  - destruct (index_of _ _); reflexivity.
  - cbv zeta. rewrite erase_bind. apply bind_ext; [rewrite erase_wrap; apply value_erase|reflexivity].
Qed.

Lemma sec_erase : forall fuel id fs s, erase (dec_sec_m fuel id fs s) = dec_sec fuel id fs s.
Proof.
  induction fuel as [|f IH]; intros id fs s; [reflexivity|]. cbn [dec_sec_m dec_sec]. rewrite erase_bind. apply bind_ext; [rewrite erase_wrap; apply erase_lift; reflexivity|].
  intros [[data|] s1]; [|reflexivity]. rewrite erase_bind. apply bind_ext; [apply erase_lift; reflexivity|]. intros [[name params] value].
  destruct (beq (upper name) (bs "BEGIN")).
  - destruct (find_field _ _) as [[i fd]|].
    + cbv zeta. destruct (full fd i fs); [reflexivity|]. destruct (fd_type fd) as [pid|sid|]; [reflexivity| |].
      * rewrite erase_bind. apply bind_ext; [rewrite erase_wrap; apply IH|]. intros [x s2]. apply IH.
      * rewrite erase_bind. apply bind_ext; [rewrite erase_wrap; apply erase_lift; reflexivity|]. intros [[pt ty] s2]. destruct ty as [sid|]; [|reflexivity].
        rewrite erase_bind. apply bind_ext; [rewrite erase_wrap; apply IH|]. intros [x s3]. apply IH.
    + cbv zeta. rewrite erase_bind. apply bind_ext; [rewrite erase_wrap; apply erase_lift; reflexivity|]. intros s2. apply IH.
  - destruct (find_field _ _) as [[i fd]|].
    + destruct (full fd i fs); [reflexivity|]. destruct (fd_type fd) as [pid|sid|]; [|reflexivity|reflexivity].
      rewrite erase_bind. apply bind_ext; [rewrite erase_wrap; apply prop_erase|]. intros p. apply IH.
    + destruct (beq (upper name) (bs "END")); [|apply IH]. destruct (beq value _); [|reflexivity].
      rewrite erase_bind. apply bind_ext; [rewrite erase_wrap; apply erase_lift; reflexivity|reflexivity].
Qed.
Theorem decode_erase s : erase (decode_m s) = decode_bytes s.
Proof.
  unfold decode_m, decode_bytes, decode_src. rewrite erase_bind. apply bind_ext; [apply erase_lift; reflexivity|]. intros [[data|] s1]; [|reflexivity].
  rewrite erase_bind. apply bind_ext; [apply erase_lift; reflexivity|]. intros [[name params] value]. destruct (_ && _); [|reflexivity].
  rewrite erase_bind. apply bind_ext; [apply sec_erase|]. intros [c s2]. reflexivity.
Qed.

(** ** ... and for validation *)
Lemma param_valid_erase p v : option_map root (param_valid_m p v) = param_valid (pkind_of p) v.
Proof. unfold param_valid_m, wrap_o. destruct (param_valid _ _); reflexivity. Qed.
End Messages.
