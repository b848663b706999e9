(** C54: the generated accessors. *)
From Coq Require Import String.
From Verif Require Import Base StringCompactionModel StringCompactionProofs DocModel DiffSpec DiffProofs ArchiveModel JsonModel JsonSpec JsonProofs JsonProps ValidModel ValidSpec IntfModel IntfSpec
  GenModel GenSpec GenNameProofs GenProofs GenWellProofs GenRunProofs GenCheckProofs.

(* ------------------------------------------------------------------ *)
(** * Examples *)

Definition str (s : string) : jval := JString (txt s).
Definition row (id : string) (more : list (name * jval)) : jval := JMap ((txt "ID", str id) :: more).

(** the file [root.json5] alone, loaded and validated *)
Definition load_doc (j : jval) : res root_obj := load_root sample_addr in_place (texts [j]) [(txt "src/root.json5", [0])] true.

(** a document with parameters of three types, one of them old, two tables, a list of items
    that refer to a row of a table and have a list of items, each of them an enum *)
Definition game : jval := JMap [
  (txt "title", str "g"); (txt "level?", JInt 3); (txt "weights", JArray [str "FloatArray"; JDouble 4607182418800017408]); (txt "Old", JArray [str "level"]);
  (txt "weapons", JArray [str "Table"; JArray [str "Default"; JMap [(txt "power", JInt 1)]]; JArray [str "Old"; str "club"];
                          row "long_sword" [(txt "power", JInt 9)]; row "club" []]);
  (txt "spells", JArray [str "Table"; JArray [str "Default"; JMap [(txt "label", str "")]]; row "fire" []]);
  (txt "heroes", JArray [str "MList"; JArray [JMap [
      (txt "hp", JInt 10); (txt "name", str "nobody"); (txt "Ref", JMap [(txt "weapons", str "long_sword")]);
      (txt "pockets", JArray [str "MilDef"; JArray [JMap [(txt "count", JInt 1); (txt "Enum", JMap [(txt "weapons", JNull); (txt "spells", JNull)])]]])]]])].

Definition game_root : hmap (Z * rootvalue) := match load_doc game with Ok r => ro_default r | _ => [] end.
Definition game_old : list name := match load_doc game with Ok r => ro_old r | _ => [] end.
Definition game_text : list decl := generate game_old game_root.

Lemma game_loaded : exists r, load_doc game = Ok r /\ ro_default r = game_root /\ ro_old r = game_old.
Proof. unfold game_root, game_old. destruct (load_doc game) as [r| |] eqn:E; [exists r; auto| |]; vm_compute in E; discriminate E. Qed.

Lemma game_tame : tame game_root.
Proof. apply tameb_tame. vm_compute. reflexivity. Qed.

(* ------------------------------------------------------------------ *)
(** * C54: the text compiles *)

(** If the names in a document cause no trouble, the generated text declares nothing twice,
    uses only identifiers as names, names only types it declares, and its matches cover all
    variants.  (The types of expressions: C67.) *)
Theorem C54_compiles_partial : forall old root, tame root -> well_formed (generate old root).
Proof. intros old root. apply generate_well_formed. Qed.
Print Assumptions C54_compiles_partial.

Example C54_compiles_case : (exists r, load_doc game = Ok r /\ ro_default r = game_root /\ ro_old r = game_old) /\ tame game_root /\ well_formed game_text /\
  map decl_name game_text = map txt ["RootIntf"; "WeaponsTable"; "WeaponsTableID"; "WeaponsCItem"; "SpellsTable"; "SpellsTableID"; "SpellsCItem";
    "HeroesMItem"; "PocketsMItem"; "PocketsEnum"; "PocketsKind"]%string /\
  match game_text with
  | DStruct _ ms :: _ => map m_name ms = map txt ["new"; "root_obj_ref"; "root_obj_ref_mut"; "deconstruct"; "title_def_val"; "title"; "title_mut"; "set_title";
      "level_old"; "level_old_def_val"; "set_level_old"; "weights_def_val"; "weights"; "weights_mut"; "set_weights"; "weapons"; "spells"; "heroes"; "heroes_mut"]%string
  | _ => False
  end.
Proof.
  split; [exact game_loaded|]. split; [exact game_tame|]. split; [apply C54_compiles_partial, game_tame|]. split; vm_compute; reflexivity.
Qed.

(* ------------------------------------------------------------------ *)
(** * C54: what the methods do *)

(** Every generated method asks for a member that is there, with the type and the marks of its
    declaration: whatever the document is called. *)
Theorem C54_calls : forall old root nm ms m, In (DStruct nm ms) (generate old root) -> In m ms ->
  (nm = txt "RootIntf" /\ root_call root (m_call m)) \/
  (exists key id d rows o, In (key, (id, WTable d rows o)) root /\ nm = table_type key /\ table_call rows (m_call m)) \/
  (exists stem l, clisted root stem l /\ nm = citem_type stem /\ item_call AtCItem l (m_call m)) \/
  (exists stem l, mlisted root stem l /\ nm = mitem_type stem /\ item_call AtMItem l (m_call m)).
Proof. intros old root nm ms m H. apply generated_calls with (old := old). apply generate_declared, H. Qed.
Print Assumptions C54_calls.

(** Every member can be read by its name, with [_old] if it is old. *)
Theorem C54_members : forall old root, tame root ->
  (forall key id v, In (key, (id, v)) root -> exists m, has_method (generate old root) (txt "RootIntf") (with_old key (contains old key)) m /\
     m_call m = match v with WParam p vt => CRead AtRoot (type_of p) vt key | WTable _ _ _ => CTable key | WCList _ _ => CConstList AtRoot key | WMList _ u => CList AtRoot u key end) /\
  (forall stem l key id v, mlisted root stem l -> In (key, (id, v)) (ld_members l) -> (forall d, v <> DCil d) ->
     exists m, has_method (generate old root) (mitem_type stem) (with_old key (contains (ld_old l) key)) m /\
     m_call m = match v with DParam p vt => CRead AtMItem (type_of p) vt key | DMil _ u => CList AtMItem u key | DCil _ => COther end) /\
  (forall stem l key id v, clisted root stem l -> In (key, (id, v)) (ld_members l) -> (forall d u, v <> DMil d u) ->
     exists m, has_method (generate old root) (citem_type stem) (with_old key (contains (ld_old l) key)) m /\
     m_call m = match v with DParam p vt => CRead AtCItem (type_of p) vt key | DCil _ => CConstList AtCItem key | DMil _ _ => COther end) /\
  (forall at_ stem l key id q vt, (at_ = AtCItem /\ clisted root stem l) \/ (at_ = AtMItem /\ mlisted root stem l) -> ld_enum l = false -> In (key, (id, (q, vt))) (ld_refs l) ->
     exists m m', let nm := with_old key (contains (ld_ref_old l) key) in
       let ty := match at_ with AtCItem => citem_type stem | _ => mitem_type stem end in
       has_method (generate old root) ty (txt "ref_" ++ nm) m /\ m_call m = CRef at_ vt key /\
       has_method (generate old root) ty (txt "ref_id_" ++ nm) m' /\ m_call m' = CRefId at_ vt key).
Proof.
  intros old root T. split; [intros; eapply root_readers; eassumption|]. split; [intros; eapply mitem_readers; eassumption|].
  split; [intros; eapply citem_readers; eassumption|intros; eapply ref_readers; eassumption].
Qed.
Print Assumptions C54_members.

(** A parameter of the root is set by [set_] and its name, and read by its name: what is read
    is what was set, and nothing else changes. *)
Theorem C54_root : forall old root L (s : hmap (rootsab L)) key id p vt q, tame root -> In (key, (id, WParam p vt)) root ->
  root_kinds s (strip_root root) -> type_of q = type_of p -> allows_param vt q ->
  let nm := with_old key (contains old key) in
  exists get set s', has_method (generate old root) (txt "RootIntf") nm get /\ has_method (generate old root) (txt "RootIntf") (txt "set_" ++ nm) set /\
    run_root_set set s (strip_root root) q = Ok s' /\ run_root_read get s' (strip_root root) = Ok (contents q) /\ only_member key s s'.
Proof. intros old root L s key id p vt q T. eapply root_accessors; assumption. Qed.
Print Assumptions C54_root.

(** The same for the items of mutable lists at any depth. *)
Theorem C54_item : forall old root L (it : item L) stem l key id p vt q, tame root -> mlisted root stem l -> In (key, (id, DParam p vt)) (ld_members l) ->
  item_kinds it l -> type_of q = type_of p -> allows_param vt q ->
  let nm := with_old key (contains (ld_old l) key) in
  exists get set it', has_method (generate old root) (mitem_type stem) nm get /\ has_method (generate old root) (mitem_type stem) (txt "set_" ++ nm) set /\
    run_item_set set it l q = Ok it' /\ run_item_read get it' l = Ok (contents q) /\ only_value key it it'.
Proof. intros old root L it stem l key id p vt q T. eapply item_accessors; assumption. Qed.
Print Assumptions C54_item.

(** The ids of a table: the texts, the variants and the numbers correspond one to one. *)
Theorem C54_ids : forall old root key id d rows o, tame root -> In (key, (id, WTable d rows o)) root -> exists ids,
  In ids (generate old root) /\ decl_name ids = ids_type key /\
  (forall row it, In (row, it) rows -> exists v i, v = variant_name row (contains o row) /\ run_from_str ids row = Some v /\
     run_to_num ids v = Ok i /\ 0 <= i < zlen rows /\ run_from_num ids i = Ok v /\ run_to_str ids v = Ok row) /\
  (forall row, ~ In row (map fst rows) -> run_from_str ids row = None) /\
  (forall i, 0 <= i < zlen rows -> exists row v, In row (map fst rows) /\ run_from_num ids i = Ok v /\ run_from_str ids row = Some v /\ run_to_num ids v = Ok i) /\
  (forall i, ~ 0 <= i < zlen rows -> run_from_num ids i = Panic).
Proof. intros old root key id d rows o T H. eexists. eapply run_ids; eassumption. Qed.
Print Assumptions C54_ids.

(** and the variant gives the row. *)
Theorem C54_by_id : forall old root key id d rows o row it, tame root -> In (key, (id, WTable d rows o)) root -> In (row, it) rows ->
  exists t, In t (generate old root) /\ decl_name t = table_type key /\ run_by_id t (variant_name row (contains o row)) = Some row.
Proof. intros old root key id d rows o row it T. eapply by_id_row; assumption. Qed.
Print Assumptions C54_by_id.

(** An enum that is set is read back: the variant and the row. *)
Theorem C54_enum : forall old root L R iter (tables : hmap (hmap R)) stem l (it : item L) key v rows id r, tame root -> iterates iter ->
  mlisted root stem l -> ld_enum l = true -> In (key, v) (ld_refs l) -> hget key tables = Some rows -> hget id rows = Some r ->
  exists enum kind it', In enum (generate old root) /\ decl_name enum = enum_type stem /\ In kind (generate old root) /\ decl_name kind = kind_type stem /\
    run_set_enum kind it (to_type_name key) id = Ok it' /\ run_get_enum iter tables enum it' l = Ok (to_type_name key, r).
Proof. intros old root L R iter tables stem l it key v rows id r T. eapply run_enum; assumption. Qed.
Print Assumptions C54_enum.

(** the list [pockets] inside the list [heroes] *)
Definition pockets_def : ldef def :=
  match hget (txt "heroes") game_root with
  | Some (_, WMList (Def l) _) => match hget (txt "pockets") (ld_members l) with Some (_, DMil (Def l') _) => l' | _ => LDef [] [] false [] [] end
  | _ => LDef [] [] false [] []
  end.
Lemma pockets_listed : mlisted game_root (txt "pockets") pockets_def.
Proof.
  eapply mlisted_mil; [eapply mlisted_mlist|].
  - vm_compute. right; right; right; right; right; left. reflexivity.
  - vm_compute. right; right; left. reflexivity.
Qed.

(* ------------------------------------------------------------------ *)
(** * Cases of what the methods do *)

Example C54_calls_case : exists ms m, In (DStruct (txt "RootIntf") ms) game_text /\ In m ms /\ m_name m = txt "set_level_old" /\
  m_call m = CSet AtRoot TInt Nullable (txt "level") /\ root_call game_root (m_call m).
Proof.
  assert (F : exists r ms, game_text = DStruct (txt "RootIntf") ms :: r /\ exists m, find (fun m => eqb_bytes (m_name m) (txt "set_level_old")) ms = Some m /\
    m_call m = CSet AtRoot TInt Nullable (txt "level") /\ m_name m = txt "set_level_old").
  { do 2 eexists. split; [vm_compute; reflexivity|]. eexists. split; [vm_compute; reflexivity|]. split; vm_compute; reflexivity. }
  destruct F as (r & ms & F & m & G & C & M). exists ms, m. apply find_some in G as [G _].
  split; [rewrite F; left; reflexivity|]. split; [exact G|]. split; [exact M|]. split; [exact C|].
  rewrite C. exists 1, (PInt (Val 3)). split; [vm_compute; right; left; reflexivity|reflexivity].
Qed.

Lemma find_method : forall ds nm f d m, find (fun d => eqb_bytes (decl_name d) nm) ds = Some d -> method d f = Some m -> has_method ds nm f m.
Proof.
  intros ds nm f d m H M. apply find_some in H as [H E]. exists d. split; [exact H|]. split; [apply eqb_bytes_eq, E|exact M].
Qed.
Ltac found := eapply find_method; vm_compute; reflexivity.

Example C54_members_case : exists m, In (txt "heroes", (5, WMList (Def (match hget (txt "heroes") game_root with Some (_, WMList (Def l) _) => l | _ => LDef [] [] false [] [] end)) false)) game_root /\
  has_method game_text (txt "RootIntf") (txt "heroes") m /\ m_call m = CList AtRoot false (txt "heroes") /\
  exists m', has_method game_text (txt "HeroesMItem") (txt "ref_weapons") m' /\ m_call m' = CRef AtMItem Normal (txt "weapons").
Proof.
  eexists. split; [vm_compute; right; right; right; right; right; left; reflexivity|]. split; [found|]. split; [vm_compute; reflexivity|].
  eexists. split; [found|]. vm_compute. reflexivity.
Qed.

Example C54_root_case : let s : hmap (rootsab Z) := [(txt "title", RParam (PString (Val (0, txt "new"))))] in
  In (txt "level", (1, WParam (PInt (Val 3)) Nullable)) game_root /\ root_kinds s (strip_root game_root) /\ allows_param Nullable (PInt Null) /\
  exists get set s', has_method game_text (txt "RootIntf") (txt "level_old") get /\ has_method game_text (txt "RootIntf") (txt "set_level_old") set /\
    run_root_read get s (strip_root game_root) = Ok (Val (CInt 3)) /\
    run_root_set set s (strip_root game_root) (PInt Null) = Ok s' /\ run_root_read get s' (strip_root game_root) = Ok Null.
Proof.
  split; [vm_compute; right; left; reflexivity|].
  split.
  { intros key v id p vt H _. apply hget_in in H. destruct H as [H|[]]. apply pair_equal_spec in H as [_ <-]. eexists. reflexivity. }
  split; [vm_compute; tauto|].
  do 3 eexists. split; [found|]. split; [found|]. split; [vm_compute; reflexivity|]. split; vm_compute; reflexivity.
Qed.

Example C54_item_case : let it : item Z := Item [] [] in
  In (txt "count", (0, DParam (PInt (Val 1)) Normal)) (ld_members pockets_def) /\ item_kinds it pockets_def /\
  exists get set it', has_method game_text (txt "PocketsMItem") (txt "count") get /\ has_method game_text (txt "PocketsMItem") (txt "set_count") set /\
    run_item_read get it pockets_def = Ok (Val (CInt 1)) /\
    run_item_set set it pockets_def (PInt (Val 7)) = Ok it' /\ run_item_read get it' pockets_def = Ok (Val (CInt 7)).
Proof.
  split; [vm_compute; left; reflexivity|]. split; [intros key v id p vt H; discriminate H|].
  do 3 eexists. split; [found|]. split; [found|]. split; [vm_compute; reflexivity|]. split; vm_compute; reflexivity.
Qed.

Example C54_ids_case : exists ids t, In ids game_text /\ decl_name ids = txt "WeaponsTableID" /\ In t game_text /\ decl_name t = txt "WeaponsTable" /\
  run_from_str ids (txt "long_sword") = Some (txt "LongSword") /\ run_to_num ids (txt "LongSword") = Ok 0 /\ run_from_num ids 0 = Ok (txt "LongSword") /\
  run_from_str ids (txt "club") = Some (txt "ClubOld") /\ run_to_str ids (txt "ClubOld") = Ok (txt "club") /\ run_from_num ids 2 = Panic /\
  run_by_id t (txt "ClubOld") = Some (txt "club").
Proof.
  assert (F : forall nm, find (fun d => eqb_bytes (decl_name d) nm) game_text <> None -> exists d, find (fun d => eqb_bytes (decl_name d) nm) game_text = Some d /\ In d game_text /\ decl_name d = nm).
  { intros nm H. destruct (find (fun d => eqb_bytes (decl_name d) nm) game_text) as [d|] eqn:E; [|destruct H; reflexivity]. exists d. split; [reflexivity|].
    apply find_some in E as [E F]. split; [exact E|apply eqb_bytes_eq, F]. }
  destruct (F (txt "WeaponsTableID") ltac:(vm_compute; discriminate)) as (ids & E & I & N). destruct (F (txt "WeaponsTable") ltac:(vm_compute; discriminate)) as (t & E' & I' & N').
  exists ids, t. vm_compute in E. apply Some_inj in E as <-. vm_compute in E'. apply Some_inj in E' as <-.
  split; [exact I|]. split; [exact N|]. split; [exact I'|]. split; [exact N'|]. repeat (split; [vm_compute; reflexivity|]). vm_compute. reflexivity.
Qed.

Example C54_enum_case : let it : item Z := Item [] [] in let tables : hmap (hmap Z) := [(txt "weapons", [(txt "club", 5)]); (txt "spells", [(txt "fire", 7)])] in
  ld_enum pockets_def = true /\ In (txt "spells", (1, (Null, Normal))) (ld_refs pockets_def) /\
  exists enum kind it', In enum game_text /\ decl_name enum = txt "PocketsEnum" /\ In kind game_text /\ decl_name kind = txt "PocketsKind" /\
    run_set_enum kind it (txt "Spells") (txt "fire") = Ok it' /\ run_get_enum in_place tables enum it' pockets_def = Ok (txt "Spells", 7).
Proof.
  split; [vm_compute; reflexivity|]. split; [vm_compute; right; left; reflexivity|].
  destruct (C54_enum game_old game_root Z Z in_place [(txt "weapons", [(txt "club", 5)]); (txt "spells", [(txt "fire", 7)])] (txt "pockets") pockets_def (Item [] [])
    (txt "spells") (1, (Null, Normal)) [(txt "fire", 7)] (txt "fire") 7 game_tame in_place_iterates pockets_listed)
    as (enum & kind & it' & A & B & C & D & E & F).
  1-4: vm_compute; try reflexivity. { right; left; reflexivity. }
  exists enum, kind, it'. split; [exact A|]. split; [exact B|]. split; [exact C|]. split; [exact D|]. split; [exact E|exact F].
Qed.

(* ------------------------------------------------------------------ *)
(** * C54: texts that do not compile *)

(** the document is loaded and validated without an error, and this is generated *)
Definition generates (j : jval) (ds : list decl) : Prop := exists r, load_doc j = Ok r /\ generate (ro_old r) (ro_default r) = ds.

Definition mlist (nm : string) (members : list (name * jval)) : name * jval := (txt nm, JArray [str "MList"; JArray [JMap members]]).
Definition mildef (nm : string) (members : list (name * jval)) : name * jval := (txt nm, JArray [str "MilDef"; JArray [JMap members]]).
Definition table (nm : string) (members : list (name * jval)) (rows : list jval) : name * jval :=
  (txt nm, JArray (str "Table" :: JArray [str "Default"; JMap members] :: rows)).
Definition num (nm : string) : name * jval := (txt nm, JInt 1).

Lemma generates_text : forall j r ds, load_doc j = Ok r -> generate (ro_old r) (ro_default r) = ds -> generates j ds.
Proof. intros j r ds H E. exists r. split; assumption. Qed.
Ltac generated := eapply generates_text; [vm_compute; reflexivity|vm_compute; reflexivity].

(** Names that differ become the same method: [fooBar] and [foo_bar]; [@a] and [ata]; [a], which
    is old, and [a_old]; [a] and [set_a], [a_def_val] and, for texts, [a_mut]; members may be
    called [new]; the references [x] and [idX] are both read by [ref_id_x]; so are rows. *)
Theorem C54_methods_refuted : Forall (fun j => exists ds nm ms, generates j ds /\ In (DStruct nm ms) ds /\ ~ NoDup (map m_name ms))
  [JMap [num "fooBar"; num "foo_bar"];
   JMap [num "@a"; num "ata"];
   JMap [num "a"; num "a_old"; (txt "Old", JArray [str "a"])];
   JMap [num "a"; num "set_a"];
   JMap [num "a"; num "a_def_val"];
   JMap [(txt "a", str ""); num "a_mut"];
   JMap [num "new"];
   JMap [num "root_obj_ref"];
   JMap [num "deconstruct"];
   JMap [mlist "a" [(txt "Ref", JMap [(txt "x", str "r"); (txt "idX", str "r")])]; table "x" [num "v"] [row "r" []]; table "idX" [num "v"] [row "r" []]];
   JMap [table "a" [num "v"] [row "r" []; row "r_us" []]];
   JMap [table "a" [num "v"] [row "new" []]]].
Proof.
  repeat (apply Forall_cons; [|]); [..|apply Forall_nil].
  10: do 3 eexists; split; [generated|split; [right; left; reflexivity|intros H; apply nodupb_iff in H; vm_compute in H; discriminate H]].
  10,11: do 3 eexists; split; [generated|split; [right; left; reflexivity|intros H; apply nodupb_iff in H; vm_compute in H; discriminate H]].
  all: do 3 eexists; (split; [generated|split; [left; reflexivity|intros H; apply nodupb_iff in H; vm_compute in H; discriminate H]]).
Qed.
Print Assumptions C54_methods_refuted.

(** Lists of one name inside two lists become the same struct, as do [fooBar] and [foo_bar], and
    a list and a list inside it. *)
Theorem C54_structs_refuted : Forall (fun j => exists ds, generates j ds /\ ~ NoDup (map decl_name ds))
  [JMap [mlist "a" [mildef "parts" [num "x"]]; mlist "b" [mildef "parts" [num "y"]]];
   JMap [mlist "a" [mildef "a" [num "x"]]];
   JMap [mlist "foo1" [num "x"]; mlist "foo_1" [num "y"]]].
Proof.
  repeat (apply Forall_cons; [|]); [..|apply Forall_nil];
    eexists; (split; [generated|intros H; apply nodupb_iff in H; vm_compute in H; discriminate H]).
Qed.
Print Assumptions C54_structs_refuted.

(** Names of members may be words of Rust, and names of rows any texts at all. *)
Theorem C54_identifiers_refuted :
  Forall (fun j => exists ds nm ms m, generates j ds /\ In (DStruct nm ms) ds /\ In m ms /\ ~ ident (m_name m))
    [JMap [num "type"]; JMap [num "_"]; JMap [table "t" [num "x"] [row "a b" []]]; JMap [table "t" [num "x"] [row "1" []]]] /\
  Forall (fun j => exists ds nm vs a b c len md, generates j ds /\ In (DIds nm vs a b c len md) ds /\ ~ Forall ident vs)
    [JMap [table "t" [num "x"] [row "" []]]; JMap [table "t" [num "x"] [row "_" []]]; JMap [table "t" [num "x"] [row "self" []]]] /\
  (exists ds nm vs a b c len md, generates (JMap [table "t" [num "x"] [row """" []]]) ds /\ In (DIds nm vs a b c len md) ds /\ ~ Forall literal md).
Proof.
  assert (M : forall j ds nm ms, generates j ds -> In (DStruct nm ms) ds -> forallb identb (map m_name ms) = false ->
    exists ds nm ms m, generates j ds /\ In (DStruct nm ms) ds /\ In m ms /\ ~ ident (m_name m)).
  { intros j ds nm ms G I F. exists ds, nm, ms. destruct (existsb (fun m => negb (identb (m_name m))) ms) eqn:E.
    - apply existsb_exists in E as (m & J & E). exists m. split; [exact G|]. split; [exact I|]. split; [exact J|].
      intros X. apply ident_identb in X. rewrite X in E. discriminate E.
    - assert (forallb identb (map m_name ms) = true); [|congruence]. apply forallb_forall. intros x J. apply in_map_iff in J as (m & <- & J).
      destruct (identb (m_name m)) eqn:X; [reflexivity|]. assert (existsb (fun m => negb (identb (m_name m))) ms = true); [|congruence].
      apply existsb_exists. exists m. split; [exact J|rewrite X; reflexivity]. }
  split; [|split].
  - apply Forall_cons; [|apply Forall_cons; [|apply Forall_cons; [|apply Forall_cons; [|apply Forall_nil]]]].
    1,2: eapply M; [generated|left; reflexivity|vm_compute; reflexivity].
    1,2: eapply M; [generated|right; left; reflexivity|vm_compute; reflexivity].
  - repeat (apply Forall_cons; [|]); [..|apply Forall_nil];
      (do 8 eexists; split; [generated|split; [right; right; left; reflexivity|intros H; apply idents_identb in H; vm_compute in H; discriminate H]]).
  - do 8 eexists. split; [generated|]. split; [right; right; left; reflexivity|].
    intros H. inversion H as [|x l L ?]; subst. inversion L as [|y k [N _] ?]; subst. apply N. reflexivity.
Qed.
Print Assumptions C54_identifiers_refuted.

(** Rows whose names differ become the same variant, also if their methods do not. *)
Theorem C54_variants_refuted : Forall (fun j => exists ds nm vs a b c len md, generates j ds /\ In (DIds nm vs a b c len md) ds /\ ~ NoDup vs /\
    (exists ids, In ids ds /\ decl_name ids = nm /\ exists r r', r <> r' /\ run_from_str ids r = run_from_str ids r' /\ run_from_str ids r <> None))
  [JMap [table "t" [num "x"] [row "foo_1" []; row "foo1" []]];
   JMap [table "t" [num "x"] [row "foo__bar" []; row "foo_bar" []]];
   JMap [table "t" [num "x"] [row "foo" []; row "Foo" []]]].
Proof.
  assert (M : forall j ds nm vs a b c len md r r', generates j ds -> In (DIds nm vs a b c len md) ds -> nodupb vs = false -> eqb_bytes r r' = false ->
    arm r a = arm r' a -> arm r a <> None ->
    exists ds nm vs a b c len md, generates j ds /\ In (DIds nm vs a b c len md) ds /\ ~ NoDup vs /\
    (exists ids, In ids ds /\ decl_name ids = nm /\ exists r r', r <> r' /\ run_from_str ids r = run_from_str ids r' /\ run_from_str ids r <> None)).
  { intros j ds nm vs a b c len md r r' G I N E F X. exists ds, nm, vs, a, b, c, len, md. split; [exact G|]. split; [exact I|].
    split; [intros H; apply nodupb_iff in H; congruence|]. eexists. split; [exact I|]. split; [reflexivity|]. exists r, r'.
    split; [intros ->; rewrite eqb_bytes_refl in E; discriminate E|]. split; [exact F|exact X]. }
  apply Forall_cons; [|apply Forall_cons; [|apply Forall_cons; [|apply Forall_nil]]].
  - eapply M with (r := txt "foo_1") (r' := txt "foo1"); [generated|right; right; left; reflexivity|..]; vm_compute; try reflexivity; discriminate.
  - eapply M with (r := txt "foo__bar") (r' := txt "foo_bar"); [generated|right; right; left; reflexivity|..]; vm_compute; try reflexivity; discriminate.
  - eapply M with (r := txt "foo") (r' := txt "Foo"); [generated|right; right; left; reflexivity|..]; vm_compute; try reflexivity; discriminate.
Qed.
Print Assumptions C54_variants_refuted.

(** A table without rows becomes an enum without variants and with a representation; an enum
    without references becomes one that holds nothing. *)
Theorem C54_empty_refuted :
  (exists ds nm a b c len md, generates (JMap [table "t" [num "x"] []]) ds /\ In (DIds nm [] a b c len md) ds) /\
  (exists ds nm arms, generates (JMap [mlist "a" [num "x"; (txt "Enum", JMap [])]]) ds /\ In (DKind nm [] arms) ds).
Proof.
  split.
  - do 7 eexists. split; [generated|right; right; left; reflexivity].
  - do 3 eexists. split; [generated|right; right; right; left; reflexivity].
Qed.
Print Assumptions C54_empty_refuted.

(** A reference that may be null names a table that need not be there; the text names its types. *)
Theorem C54_types_refuted : exists ds nm ms m t, generates (JMap [mlist "a" [num "x"; (txt "Ref", JMap [(txt "nowhere?", JNull)])]]) ds /\
  In (DStruct nm ms) ds /\ In m ms /\ In t (m_types m) /\ ~ In t (map decl_name ds).
Proof.
  do 5 eexists. split; [generated|]. split; [right; left; reflexivity|]. split; [right; right; right; left; reflexivity|]. split; [left; reflexivity|].
  apply not_in_text. vm_compute. reflexivity.
Qed.
Print Assumptions C54_types_refuted.

(** A member called [from] takes the place of the conversion that the methods of the rows call. *)
Theorem C54_from_refuted : exists ds nm ms m t ms', generates (JMap [table "t" [num "from"] [row "a" []]]) ds /\
  In (DStruct nm ms) ds /\ In m ms /\ In t (m_from m) /\ In (DStruct t ms') ds /\ In (txt "from") (map m_name ms').
Proof.
  do 6 eexists. split; [generated|]. split; [right; left; reflexivity|]. split; [right; left; reflexivity|]. split; [left; reflexivity|].
  split; [right; right; right; left; reflexivity|left; reflexivity].
Qed.
Print Assumptions C54_from_refuted.
