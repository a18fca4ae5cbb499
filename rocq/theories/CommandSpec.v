(** Vocabulary of the statements about the remote commands. *)
From Coq Require Import List Arith ZArith Bool Ascii String.
From Verif Require Import Base TextModel ParamTypeModel TreeModel TreeSpec SyncModel MgrModel RemoteModel.
Import ListNotations.
Local Open Scope nat_scope.

(** The commands by the number of arguments that their usage makes mandatory. *)
Definition commands_with (n : nat) : list string :=
  match n with
  | 0 => ["help"; "version"; "status"; "getTuningMode"; "getValueSpace"; "getOutputRawFormat"; "getAutoSync"; "sync"; "listCriteria"; "listDomains";
          "dumpDomains"; "deleteAllDomains"; "listAssociatedElements"; "listConflictingElements"; "listRogueElements"; "getDomainsWithSettingsXML";
          "getSystemClassXML"; "getDomainsXML"]
  | 1 => ["setTuningMode"; "setValueSpace"; "setOutputRawFormat"; "setAutoSync"; "createDomain"; "deleteDomain"; "getSequenceAwareness";
          "listDomainElements"; "listConfigurations"; "listElements"; "listParameters"; "getElementStructureXML"; "getElementBytes"; "getElementXML";
          "dumpElement"; "getElementSize"; "showProperties"; "getParameter"; "listBelongingDomains"; "listAssociatedDomains"; "showMapping";
          "exportDomainsXML"; "importDomainsXML"; "exportDomainsWithSettingsXML"; "importDomainsWithSettingsXML"; "importDomainWithSettingsXML";
          "getDomainWithSettingsXML"; "setDomainsWithSettingsXML"; "setDomainWithSettingsXML"]
  | 2 => ["renameDomain"; "setSequenceAwareness"; "addElement"; "removeElement"; "splitDomain"; "createConfiguration"; "deleteConfiguration";
          "saveConfiguration"; "restoreConfiguration"; "getElementSequence"; "clearRule"; "getRule"; "setElementBytes"; "setElementXML"; "setParameter";
          "exportDomainWithSettingsXML"]
  | 3 => ["renameConfiguration"; "setElementSequence"; "setRule"; "getConfigurationParameter"]
  | 4 => ["setConfigurationParameter"]
  | _ => []
  end%string.

(** The command [name] exists and has [n] mandatory arguments. *)
Definition mandatory (name : str) (n : nat) : Prop := In name (map lit (commands_with n)).

(** The words of a text: [words l s] when [s] is the words of [l] separated by one space. *)
Inductive words : list str -> str -> Prop :=
  | words_one : forall w, words [w] w
  | words_more : forall w l s, words l s -> words (w :: l) (w ++ lit " " ++ s).

(** What the commands that change something mean; extra arguments are ignored. *)
Inductive means (need : list nat) : string -> list str -> cmd -> Prop :=
  | m_tuning_on : forall r, means need "setTuningMode" (lit "on" :: r) (CTuning true need)
  | m_tuning_off : forall r, means need "setTuningMode" (lit "off" :: r) (CTuning false need)
  | m_raw : forall r, means need "setValueSpace" (lit "raw" :: r) (CValueSpace true)
  | m_real : forall r, means need "setValueSpace" (lit "real" :: r) (CValueSpace false)
  | m_hex : forall r, means need "setOutputRawFormat" (lit "hex" :: r) (COutputFormat true)
  | m_dec : forall r, means need "setOutputRawFormat" (lit "dec" :: r) (COutputFormat false)
  | m_auto_on : forall r, means need "setAutoSync" (lit "on" :: r) (CAutoSync true)
  | m_auto_off : forall r, means need "setAutoSync" (lit "off" :: r) (CAutoSync false)
  | m_sync : forall r, means need "sync" r CSync
  | m_create : forall d r, means need "createDomain" (d :: r) (CCreateDomain d)
  | m_delete : forall d r, means need "deleteDomain" (d :: r) (CDeleteDomain d)
  | m_delete_all : forall r, means need "deleteAllDomains" r CDeleteAllDomains
  | m_rename : forall d n r, means need "renameDomain" (d :: n :: r) (CRenameDomain d n)
  | m_aware : forall d r, means need "setSequenceAwareness" (d :: lit "true" :: r) (CSequenceAware d true)
  | m_unaware : forall d r, means need "setSequenceAwareness" (d :: lit "false" :: r) (CSequenceAware d false)
  | m_add : forall d p r, means need "addElement" (d :: p :: r) (CAddElement d p)
  | m_remove : forall d p r, means need "removeElement" (d :: p :: r) (CRemoveElement d p)
  | m_split : forall d p r, means need "splitDomain" (d :: p :: r) (CSplit d p)
  | m_create_config : forall d c r, means need "createConfiguration" (d :: c :: r) (CCreateConfig d c)
  | m_delete_config : forall d c r, means need "deleteConfiguration" (d :: c :: r) (CDeleteConfig d c)
  | m_rename_config : forall d c n r, means need "renameConfiguration" (d :: c :: n :: r) (CRenameConfig d c n)
  | m_save : forall d c r, means need "saveConfiguration" (d :: c :: r) (CSave d c)
  | m_restore : forall d c r, means need "restoreConfiguration" (d :: c :: r) (CRestore d c)
  | m_sequence : forall d c p l, means need "setElementSequence" (d :: c :: p :: l) (CSequence d c (p :: l))
  | m_rule : forall d c l s, words l s -> means need "setRule" (d :: c :: l) (CSetRule d c s)
  | m_clear_rule : forall d c r, means need "clearRule" (d :: c :: r) (CClearRule d c)
  | m_set : forall p l s, words l s -> means need "setParameter" (p :: l) (CSetParameter p s)
  | m_set_config : forall d c p l s, words l s -> means need "setConfigurationParameter" (d :: c :: p :: l) (CSetConfigParameter d c p s).

(** The commands that ask for something. *)
Definition asking (name : string) : Prop :=
  In name ["help"; "version"; "status"]%string \/ exists p, In p ["get"; "list"; "show"; "dump"; "export"]%string /\ String.prefix p name = true.

(** The commands that take settings in XML (not modelled here). *)
Definition importing (name : string) : Prop :=
  In name ["importDomainsXML"; "importDomainsWithSettingsXML"; "importDomainWithSettingsXML"; "setDomainsWithSettingsXML"; "setDomainWithSettingsXML";
           "setElementXML"]%string.

(** What the printing of a 32 bit enumeration in hexadecimal does not support. *)
Definition printable (f : fmt) (t : ptype) : Prop := f_raw f = true -> f_hex f = true -> forall b ps, t = PEnum b ps -> b < 4.
Definition kind_printable (f : fmt) (k : ekind) : Prop := match k with KdParam t | KdArray t _ => printable f t | _ => True end.
Definition all_printable (y : system) (f : fmt) : Prop := forall q e, param_at (sy_root y) q e -> kind_printable f (e_kind e).
