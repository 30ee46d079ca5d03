(** C26 and C27: staggered-grid locations in names and attributes. *)
From Verif Require Import SGLocProofs.
Open Scope string_scope.

(** ** C26 *)
(** Parsing reads a root and a location when the value begins with them in the format of the
    attribute, and only then; otherwise the value is returned as it is. *)
Theorem C26_parse sg attr v : known_attr attr ->
  exists r ol, parse_attr sg attr v = Ok (r, ol) /\
  match ol with
  | Some l => exists l' rest, l = lower l' /\ carries sg attr v r l' rest
  | None => r = v /\ forall r' l' rest, ~ carries sg attr v r' l' rest
  end.
Proof.
  intro Hk. destruct (parse_cases sg attr v Hk) as [(r & l & rest & _ & Hc & Hp)|[Hn Hp]]; rewrite Hp.
  - exists r, (Some (lower l)). split; eauto.
  - exists v, None. auto.
Qed.
Theorem C26_parse_other sg attr v : ~ known_attr attr -> parse_attr sg attr v = Raise KeyError.
Proof.
  intro H. unfold parse_attr. destruct (is_valid_attr attr) eqn:E; auto. exfalso. apply H. now apply valid_attr_iff.
Qed.
(** When several readings exist: the longest root; then the longest location, or the first of
    the valid locations. *)
Theorem C26_preference sg attr v r l : known_attr attr -> root_first (format_of sg attr) = true ->
  parse_attr sg attr v = Ok (r, Some l) ->
  exists l' rest, l = lower l' /\ carries sg attr v r l' rest /\
    (forall r2 l2 rest2, carries sg attr v r2 l2 rest2 -> String.length r2 <= String.length r) /\
    (valid_locations sg = [] ->
       forall l2 rest2, carries sg attr v r l2 rest2 -> String.length l2 <= String.length l') /\
    (valid_locations sg <> [] ->
       exists ws1 w ws2, valid_locations sg = (ws1 ++ w :: ws2)%list /\ lower l' = lower w /\
         forall w2 l2 rest2, In w2 ws1 -> lower l2 = lower w2 -> ~ carries sg attr v r l2 rest2).
Proof. exact (parse_preferred sg attr v r l). Qed.

(** The default locator: any root, any location made of letters, the three attributes. *)
Definition default_sg := mksg default_name_format [].
Theorem C26_roundtrip attr root loc : known_attr attr -> is_root attr root -> letters loc ->
  parse_attr default_sg attr (apply_format (format_of default_sg attr) root loc) = Ok (root, Some (lower loc)).
Proof.
  intros Hk Hr Hl.
  assert (Hf : root_first (format_of default_sg attr) = true /\ starts_non_letter (mid (format_of default_sg attr)) /\
    (post (format_of default_sg attr) = "" \/ starts_non_letter (post (format_of default_sg attr)))).
  { destruct Hk as [->|[->| ->]]; cbn; auto. }
  destruct Hf as (F1 & F2 & F3).
  destruct (roundtrip_root default_sg attr root loc Hk F1 F2) as (l & Hp & _ & _ & Hc); auto.
  - intros w [].
  - rewrite Hp. rewrite Hc; [reflexivity|]. split; [exact F3|]. right. intros w x [].
Qed.
(** With a list of valid locations (letters): standard_name and long_name. *)
Theorem C26_roundtrip_valid sg attr root loc : attr = "standard_name" \/ attr = "long_name" ->
  (forall w, In w (valid_locations sg) -> letters w) -> is_root attr root -> letters loc -> is_location sg loc ->
  parse_attr sg attr (apply_format (format_of sg attr) root loc) = Ok (root, Some (lower loc)).
Proof.
  intros Hk Ha Hr Hl Hloc.
  assert (Hf : root_first (format_of sg attr) = true /\ starts_non_letter (mid (format_of sg attr)) /\
    starts_non_letter (post (format_of sg attr))).
  { destruct Hk as [->| ->]; cbn; auto. }
  destruct Hf as (F1 & F2 & F3).
  destruct (roundtrip_root sg attr root loc) as (l & Hp & _ & _ & Hc); auto.
  - unfold known_attr. tauto.
  - rewrite Hp. rewrite Hc; [reflexivity|]. split; auto.
Qed.
(** Names, with a format "<pre>{root}<sep>{loc}" whose separator begins with a character that
    is not a letter, and any list of valid locations made of letters: the root is always found
    back; the location is, when no valid location is a proper prefix of it. *)
Theorem C26_roundtrip_name p sep ws root loc : let sg := mksg (mkfmt p true sep "") ws in
  starts_non_letter sep -> (forall w, In w ws -> letters w) -> is_root "name" root -> letters loc -> is_location sg loc ->
  exists l, parse_attr sg "name" (p ++ root ++ sep ++ loc) = Ok (root, Some l) /\
    (exists x, lower loc = l ++ x) /\
    ((forall w x, In w ws -> lower loc = lower w ++ x -> x = "") -> l = lower loc).
Proof.
  cbn zeta. intros Hs Ha Hr Hl Hloc. set (sg := mksg (mkfmt p true sep "") ws) in *.
  destruct (roundtrip_root sg "name" root loc) as (l & Hp & _ & (x & Hx) & Hc); auto.
  - left; reflexivity.
  - unfold apply_format in Hp. cbn in Hp. rewrite sapp_nil_r in Hp.
    exists (lower l). split; [exact Hp|]. split.
    + exists (lower x). rewrite <- lower_app. f_equal. cbn in Hx. rewrite sapp_nil_r in Hx. exact Hx.
    + intro H. apply Hc. split; [left; reflexivity|]. right. exact H.
Qed.
(** Formats "<pre>{loc}<sep>{root}" *)
Theorem C26_roundtrip_loc_first p sep ws root loc : let sg := mksg (mkfmt p false sep "") ws in
  starts_non_letter sep -> (forall w, In w ws -> letters w) -> is_root "name" root -> letters loc -> is_location sg loc ->
  parse_attr sg "name" (p ++ loc ++ sep ++ root) = Ok (root, Some (lower loc)).
Proof.
  cbn zeta. intros Hs Ha Hr Hl Hloc. set (sg := mksg (mkfmt p false sep "") ws) in *.
  assert (H := roundtrip_loc_first sg "name" root loc (or_introl eq_refl) eq_refl Hs eq_refl Ha Hr Hl Hloc).
  unfold apply_format in H. cbn in H. rewrite sapp_nil_r in H. exact H.
Qed.
(** A value entirely in the format is given back by format_attr, up to case. *)
Theorem C26_reformat sg attr v r l : known_attr attr ->
  parse_attr sg attr v = Ok (r, Some l) -> carries sg attr v r l "" \/ (exists l', l = lower l' /\ carries sg attr v r l' "") ->
  l <> "" -> exists w, format_str sg attr v LNone false = Ok w /\ lower w = lower v.
Proof.
  intros Hk Hp Hc Hne. unfold format_str. rewrite (proj2 (valid_attr_iff attr) Hk), Hp. cbn [negb bind].
  assert (En : nonempty l = true) by (destruct l; auto; congruence). rewrite En. eexists. split; [reflexivity|].
  assert (Hc' : exists l', lower l = lower l' /\ carries sg attr v r l' "").
  { destruct Hc as [Hc|(l' & -> & Hc)]; [eauto|]. exists l'. split; auto. apply lower_idem. }
  destruct Hc' as (l' & El & _ & _ & p & m & q & Hp' & Hm & Hq & ->).
  unfold apply_format. destruct (root_first (format_of sg attr)); rewrite !lower_app; rewrite Hp', Hm, Hq, El; cbn [lower];
    rewrite sapp_nil_r; reflexivity.
Qed.
Theorem C26_no_location sg attr v : known_attr attr -> parse_attr sg attr v = Ok (v, None) ->
  format_str sg attr v LNone false = Ok v.
Proof.
  intros Hk Hp. unfold format_str. rewrite (proj2 (valid_attr_iff attr) Hk), Hp. reflexivity.
Qed.
(** False: "the location formatted is the location parsed" when a valid location is a prefix of
    another one. *)
Theorem C26_prefix_locations_refuted : exists sg root loc,
  is_root "name" root /\ In loc (valid_locations sg) /\ (forall w, In w (valid_locations sg) -> letters w) /\
  format_str sg "name" root (LStr loc) true = Ok "temp_rho" /\
  parse_attr sg "name" "temp_rho" = Ok ("temp", Some "r").
Proof.
  exists (mksg default_name_format ["r"; "rho"]), "temp", "rho".
  split; [split; [discriminate|reflexivity]|]. split; [simpl; auto|]. split.
  - intros w [<-|[<-|[]]]; split; try discriminate; reflexivity.
  - split; vm_compute; reflexivity.
Qed.
(** False: "formatting without a location keeps a name": the end of the name is dropped. *)
Theorem C26_trailing_text_refuted :
  parse_attr default_sg "name" "temp_t2m" = Ok ("temp", Some "t") /\
  format_str default_sg "name" "temp_t2m" LNone true = Ok "temp_t".
Proof. split; vm_compute; reflexivity. Qed.
(** False: "a name that has no location is not split" without a list of valid locations. *)
Theorem C26_plain_name_refuted :
  parse_attr default_sg "name" "sea_temperature" = Ok ("sea", Some "temperature").
Proof. vm_compute. reflexivity. Qed.
Example ex26 :
  is_root "long_name" "Sea water" /\ letters "RHO" /\
  parse_attr default_sg "long_name" "Sea water at RHO location" = Ok ("Sea water", Some "rho") /\
  parse_attr default_sg "standard_name" "super_banana_at_rhum_place" = Ok ("super_banana_at_rhum_place", None) /\
  parse_attr (mksg default_name_format ["u"; "rho"]) "name" "super_banana_t" = Ok ("super_banana_t", None) /\
  parse_attr (mksg default_name_format ["u"; "rho"]) "name" "super_banana_rho" = Ok ("super_banana", Some "rho") /\
  parse_attr (mksg (mkfmt "" false "-" "") []) "name" "u-temp" = Ok ("temp", Some "u").
Proof.
  split; [split; [discriminate|reflexivity]|]. split; [split; [discriminate|reflexivity]|].
  repeat split; vm_compute; reflexivity.
Qed.
