(** Theorems about configuration files (C23, C24). *)
From Coq Require Import Sorting.Sorted.
From Verif Require Import PyStr PyPath Model_Files Spec_Files Proofs_Files.

(** C23: the files read are, in this order, the plugin-loading files of the site
    and of the distribution, the distribution's rules, the site's rules and the
    user's preferences; each group is exactly what the directories hold, in
    alphabetical order. *)
Theorem C23_file_order : forall listdir exists_ expanduser cfg site userpref files,
  get_config_files listdir exists_ expanduser cfg site userpref = Some files ->
  exists pre_site pre_cfg cf_cfg cf_site user,
    files = pre_site ++ pre_cfg ++ cf_cfg ++ cf_site ++ user /\
    (forall p, In p pre_site <-> entry listdir expanduser site ($".pre") p) /\
    (forall p, In p pre_cfg <-> site <> cfg /\ entry listdir expanduser cfg ($".pre") p) /\
    (forall p, In p cf_cfg <-> site <> cfg /\ entry listdir expanduser cfg ($".cf") p) /\
    (forall p, In p cf_site <-> entry listdir expanduser site ($".cf") p) /\
    (forall p, In p user <-> exists u, userpref = Some u /\ p = expanduser u /\ exists_ p = true) /\
    in_order pre_site /\ in_order pre_cfg /\ in_order cf_cfg /\ in_order cf_site /\ length user <= 1.
Proof. exact c23. Qed.
Print Assumptions C23_file_order.

(** The directory used without a command line option is the first of the usual ones that exists, and the option is
    required exactly when none exists. *)
Theorem C23_default_directory exists_ paths :
  (forall p, fst (get_default_configs exists_ paths) = Some p <->
     exists before after, paths = before ++ p :: after /\ exists_ p = true /\ forall q, In q before -> exists_ q = false) /\
  (snd (get_default_configs exists_ paths) = true <-> forall p, In p paths -> exists_ p = false).
Proof. exact (default_directory exists_ paths). Qed.
Print Assumptions C23_default_directory.
Example C23_default_directory_case :
  get_default_configs (fun p => negb (streqb p ($"/a"))) [$"/a"; $"/b"; $"/c"] = (Some ($"/b"), false).
Proof. vm_compute. reflexivity. Qed.

(** No file twice: false when the two directories are the same under different
    spellings. *)
Theorem C23_once_refuted : exists listdir exists_ expanduser cfg site files,
  plain_names listdir expanduser cfg /\ plain_names listdir expanduser site /\
  get_config_files listdir exists_ expanduser cfg site None = Some files /\ ~ NoDup files.
Proof.
  exists (fun _ => Some [$"local.cf"]), (fun _ => true), (fun p => p), ($"/etc/mail/"), ($"/etc/mail"), [$"/etc/mail/local.cf"; $"/etc/mail/local.cf"].
  assert (P : forall d, plain_names (fun _ => Some [$"local.cf"]) (fun p => p) d).
  { intros d names E. injection E as <-. split; [repeat constructor; intros []|].
    repeat constructor. vm_compute. intuition discriminate. }
  split; [apply P|]. split; [apply P|]. split; [vm_compute; reflexivity|].
  intros H. inversion H; subst. apply H2. left; reflexivity.
Qed.
Print Assumptions C23_once_refuted.

(** What holds: no file twice when the directories are spelled alike or are
    different directories, and the preferences are not one of their files. *)
Theorem C23_once_partial : forall listdir exists_ expanduser cfg site userpref files,
  plain_names listdir expanduser cfg -> plain_names listdir expanduser site ->
  (site = cfg \/ dir_prefix (expanduser site) <> dir_prefix (expanduser cfg)) ->
  (forall u dir ext, userpref = Some u -> dir = cfg \/ dir = site -> ext = $".pre" \/ ext = $".cf" ->
     ~ entry listdir expanduser dir ext (expanduser u)) ->
  get_config_files listdir exists_ expanduser cfg site userpref = Some files -> NoDup files.
Proof. exact c23_once. Qed.
Print Assumptions C23_once_partial.

Definition ex_fs (d : str) : option (list str) :=
  if streqb d ($"/usr/share") then Some [$"b.cf"; $"init.pre"; $"a.cf"; $"README"]
  else if streqb d ($"/etc/oa") then Some [$"v2.pre"; $"local.cf"; $"v1.pre"] else None.
Example C23_example :
  get_config_files ex_fs (fun _ => true) (fun p => p) ($"/usr/share") ($"/etc/oa") (Some ($"/home/u/prefs")) =
  Some [$"/etc/oa/v1.pre"; $"/etc/oa/v2.pre"; $"/usr/share/init.pre"; $"/usr/share/a.cf"; $"/usr/share/b.cf";
        $"/etc/oa/local.cf"; $"/home/u/prefs"].
Proof. vm_compute. reflexivity. Qed.

(** C24: false, a name with ".." or a slash leads elsewhere. *)
Theorem C24_confined_refuted : exists user, ~ below_home user (get_userprefs_path user) /\
  resolve (get_userprefs_path user) = [$"tmp"; $"x"; $".spamassassin"; $"user_prefs"].
Proof.
  exists ($"../tmp/x"). split; [|vm_compute; reflexivity].
  intros [rest E]. vm_compute in E. discriminate E.
Qed.
Print Assumptions C24_confined_refuted.

(** What holds: for a plain user name the file is the one in that home. *)
Theorem C24_confined_partial : forall user,
  user <> [] -> ~ In 47%N user -> user <> $"." -> user <> $".." ->
  below_home user (get_userprefs_path user) /\
  resolve (get_userprefs_path user) = [$"home"; user; $".spamassassin"; $"user_prefs"].
Proof.
  intros user H1 H2 H3 H4. assert (E : resolve (get_userprefs_path user) = [$"home"; user; $".spamassassin"; $"user_prefs"])
    by (apply c24; repeat split; assumption).
  split; [|exact E]. eexists. rewrite E. reflexivity.
Qed.
Print Assumptions C24_confined_partial.
Example C24_example : get_userprefs_path ($"alex") = $"/home/alex/.spamassassin/user_prefs".
Proof. vm_compute. reflexivity. Qed.
