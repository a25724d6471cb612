(** Property C88: the arguments of the web server. *)
From Coq Require Import List String Ascii NArith Bool Permutation Sorted.
From Verif Require Import Base ScopeM FilesM GitM CliM WebM FmtM SiteM SpecFmt SpecFiles SpecSite ArgsM WebArgsM SpecArgs SpecWebArgs.
From Verif Require WebArgsP.
Import ListNotations.
Local Open Scope string_scope.

(** ** C88: the server serves what its arguments say, where they say. *)
(** Arguments are accepted if and only if they are a sequence of parts that says nothing twice, except for the repositories,
    and the certificate only together with the key; and then the settings are those of the parts, and the defaults for the others. *)
Theorem C88_arguments : forall argv c, read_server_args argv = Parsed c <-> server_means argv c.
Proof. exact WebArgsP.args_lemma. Qed.
Print Assumptions C88_arguments.
(** The order of the parts does not matter, except among the lists of repositories. *)
Theorem C88_order : forall parts parts' c, Permutation parts parts' -> Forall (fun p => remark_part (fst p) (snd p)) parts ->
  remarked r_repos (map snd parts) = remarked r_repos (map snd parts') ->
  read_server_args (List.concat (map fst parts)) = Parsed c -> read_server_args (List.concat (map fst parts')) = Parsed c.
Proof. exact WebArgsP.order_lemma. Qed.
Print Assumptions C88_order.
(** All names after "--repos" up to the next option are repositories. *)
Theorem C88_names : forall vs rest rs c, Forall (fun v => ~ dashed v) vs -> remarks rest rs -> remarked r_repos rs = [] ->
  read_server_args ("--repos" :: vs ++ rest)%list = Parsed c -> sa_repos c = vs.
Proof. exact WebArgsP.names_lemma. Qed.
Print Assumptions C88_names.
(** From the arguments to the start: the server serves exactly the repositories that the arguments say, below the root that they say;
    it listens where they say, and it uses TLS if and only if they name a certificate and a key. *)
Theorem C88_serves : forall remote exists_ is_dir argv sv, web_main remote exists_ is_dir argv = Parsed (Ok sv) <->
  exists c, server_means argv c /\ sv_address sv = sa_endpoint c ++ ":" ++ dec_of_N (sa_port c) /\
    (forall ce ke, sv_tls sv = Some (ce, ke) <-> sa_cert c = Some ce /\ sa_key c = Some ke) /\
    sa_repos c <> [] /\ is_dir (path_of (sa_static c)) = true /\
    (forall n, In n (sa_repos c) -> exists_ (join (path_of (sa_root c)) n) = true /\ exists o, has_org remote (join (path_of (sa_root c)) n) o) /\
    StronglySorted (fun a b => str_cmp a b = Lt) (map fst (sv_repos sv)) /\
    forall n r, In (n, r) (sv_repos sv) <->
      In n (sa_repos c) /\ sr_name r = n /\ sr_path r = join (path_of (sa_root c)) n /\ has_org remote (join (path_of (sa_root c)) n) (sr_org r).
Proof. exact WebArgsP.main_serves. Qed.
Print Assumptions C88_serves.
(** The program never panics for want of a key: the parser of the arguments has checked it. *)
Theorem C88_no_panic : forall remote exists_ is_dir argv why, web_main remote exists_ is_dir argv <> Parsed (Panic why).
Proof. exact WebArgsP.main_panic. Qed.
Print Assumptions C88_no_panic.
(** An empty list of repositories is accepted by the parser, and refused by the program. *)
Theorem C88_none : forall remote exists_ is_dir argv c, server_means argv c -> sa_repos c = [] ->
  web_main remote exists_ is_dir argv = Parsed (Err "Need at least one value to --repos").
Proof. exact WebArgsP.none_lemma. Qed.
Print Assumptions C88_none.

(** The example of the README (README.md:67) *)
Definition ex_line := ["--root"; "../"; "--repos"; "polkadot"; "substrate"; "cumulus"].
Definition ex_args := {| sa_root := "../"; sa_static := "web/static"; sa_repos := ["polkadot"; "substrate"; "cumulus"];
  sa_endpoint := "127.0.0.1"; sa_port := 8080; sa_cert := None; sa_key := None |}.
Definition ex_rest := [RRoot "../"; RRepos ["polkadot"; "substrate"; "cumulus"]].
Lemma ex_plain a s : a <> "-"%char -> ~ dashed (String a s).
Proof. intros N (c & s' & H). congruence. Qed.
Example C88_ex : read_server_args ex_line = Parsed ex_args /\ server_means ex_line ex_args /\ remarks ex_line ex_rest.
Proof.
  assert (R : remarks ex_line ex_rest).
  { change ex_line with (["--root"; "../"] ++ (("--repos" :: ["polkadot"; "substrate"; "cumulus"]) ++ []))%list. constructor.
    - apply rp_root; [|discriminate]. left. apply (lv_next "root" "../"). now apply ex_plain.
    - constructor; [|constructor]. apply rp_repos. repeat constructor; now apply ex_plain. }
  split; [vm_compute; reflexivity|]. split; [apply C88_arguments; vm_compute; reflexivity|exact R].
Qed.
(** Short options, lists in several parts, ports, and keys *)
Example C88_ex_short :
  read_server_args ["-p=+080"; "--repos"; "b"; "a"; "-ehost"; "--repos=c,d"; "--cert"; "c.pem"; "-r"; "/srv"; "--key=k.pem"; "--"] =
    Parsed {| sa_root := "/srv"; sa_static := "web/static"; sa_repos := ["b"; "a"; "c,d"]; sa_endpoint := "host"; sa_port := 80; sa_cert := Some "c.pem"; sa_key := Some "k.pem" |} /\
  read_server_args ["--port"; "65536"] = Usage /\ read_server_args ["--cert"; "c.pem"] = Usage /\ read_server_args ["-p1"; "-p1"] = Usage /\
  read_server_args ["--repos"; "a"; "--"; "b"] = Usage.
Proof. repeat split; vm_compute; reflexivity. Qed.
Definition ex_remote (p : fpath) : cmd_result * string :=
  match p with [_; CName "polkadot"] => (Exited true "", "https://github.com/paritytech/polkadot.git") | _ => (NotRun "No such file or directory", "") end.
Definition ex_exists (p : fpath) : bool := match p with [_; CName "polkadot"] => true | _ => false end.
Example C88_ex_serves :
  web_main ex_remote ex_exists (fun _ => true) ["-r"; "../"] = Parsed (Ok {|
    sv_repos := [("polkadot", {| sr_name := "polkadot"; sr_path := [CUp; CName "polkadot"]; sr_org := "paritytech" |})];
    sv_address := "127.0.0.1:8080"; sv_tls := None |}) /\
  web_main ex_remote ex_exists (fun _ => true) ["--repos"; "-r"; "../"] = Parsed (Err "Need at least one value to --repos").
Proof. split; vm_compute; reflexivity. Qed.
(** Names are not split at commas. *)
Theorem C88_commas_refuted : exists argv c, read_server_args argv = Parsed c /\ argv = ["--repos"; "polkadot,substrate"] /\ ~ In "polkadot" (sa_repos c).
Proof.
  exists ["--repos"; "polkadot,substrate"], {| sa_root := "root/"; sa_static := "web/static"; sa_repos := ["polkadot,substrate"]; sa_endpoint := "127.0.0.1"; sa_port := 8080; sa_cert := None; sa_key := None |}.
  split; [vm_compute; reflexivity|]. split; [reflexivity|]. intros [H|[]]. discriminate H.
Qed.
Print Assumptions C88_commas_refuted.
