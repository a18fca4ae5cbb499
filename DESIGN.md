# Formal model of the parameter-framework: design

The code under study is `intel/parameter-framework` (C++), read as text in `/repo`.
The model is written in Rocq/Coq 8.16.1, in `/verif/rocq/theories`; it uses the standard library only.

## 1. Organisation

For each area `X` of the code:

* `XModel.v`: executable Gallina functions, one per C++ function, each with a
  comment citing file and lines and naming the simplifications;
* `XSpec.v`: small independent specification used to state the properties
  (omitted when the statement needs nothing more);
* `XProofs.v` (or several files): lemmas and proofs;
* `XProps.v`: the property theorems, named after the property, with `Print Assumptions` beneath each one,
  and the `Example`s (`..._nonvacuous`) showing that their hypotheses can be met.

A property which is false of the code is stated as a theorem with suffix `_refuted`
giving a concrete witness; the strongest true part is proved beside it.  A property
proved only for a part of its domain has suffix `_partial`.

Undefined behaviour and process termination are explicit outcomes
(`UB`, `Abort`) of the model functions, next to success (`Ok`) and a reported error (`Err`); they are never silently totalised.

| Area | Files | Code |
|------|-------|------|
| Text | Text*, Int* | `Tokenizer`, `Utility`, `convert.hpp` |
| Real numbers | Real*, Fix*, Float*, Print*, Adapt* | `FixedPointParameterType`, `FloatingPointParameterType`, `ParameterAdaptation`, `LinearParameterAdaptation`, `LogarithmicParameterAdaptation`, `strtod`/stream formatting of the C library |
| Parameter types | ParamType*, Bit*, Array* | `IntegerParameterType`, `BooleanParameterType`, `EnumParameterType`, `BitParameterType`, `BitParameter`, `ArrayParameter`, `StringParameter` |
| Memory | Blackboard*, Mem*, Local*, Area* | `ParameterBlackboard`, `AreaConfiguration`, `BitwiseAreaConfiguration`, `BinaryCopy` |
| Structure | Tree*, Rogue* | `ConfigurableElement`, `Element`, `PathNavigator`, `ElementLocator`, `ConfigurableElementAggregator` |
| Criteria, rules | Criterion*, Rule* | `SelectionCriterion*`, `CompoundRule`, `SelectionCriterionRule`, `RuleParser` |
| Domains | Domain*, Domains*, Config*, Edit* | `ConfigurableDomains`, `ConfigurableDomain`, `DomainConfiguration` |
| Synchronisation | Sync*, Apply*, Load* | `SyncerSet`, `SubsystemObject`, back-synchronisers, application of configurations, start |
| Manager | Mgr*, Value*, Read*, Query* | `ParameterMgr`, `ElementHandle` |
| Listing | Report* | the answers of status, list, dump, show, get…XML and help: `Element::listQualifiedPaths`, `dumpContent`, `showProperties`, `listDomains`, `getFormattedDescription`, `getPendingConfigurationName` |
| Platform | Plat* | the commands of `test/test-platform/TestPlatform.cpp` |
| Remote | Remote*, Command*, Client* | remote-process, `Message`, `RequestMessage`, `AnswerMessage`, `RemoteProcessorServer`, `RemoteCommandHandlerTemplate`, command table |
| Mapping | Map* | `Subsystem`, `MappingContext`, `MappingData`, `FormattedSubsystemObject`, `SubsystemObjectCreator` |
| Type declarations | Type*, Decl*, Struc* | `ComponentLibrary`, `ComponentType`, `TypeElement`, `InstanceDefinition`, `ParameterBlockType`, `fromXml` of the parameter types, `Subsystem::structureFromXml`, `toXml` of the types |
| C interface | Capi* | `bindings/c/ParameterFramework.cpp`, `ParameterMgrPlatformConnector` |
| domains as lists | Cat* (specification and proofs on the manager model) | `ConfigurableDomains`, `ConfigurableDomain`, `DomainConfiguration` through `ParameterMgr` |
| XML | Xml*, DomXml*, Doc* | `XmlElement`, settings and domains export and import |
| Domain generator | Gen* | tools/xmlGenerator/domainGeneratorConnector.cpp |
| Settings file tool | Tool*, Host* | tools/xmlGenerator/domainGenerator.py, hostConfig.py |
| EDD language | Edd* | tools/xmlGenerator/EddParser.py, PFWScriptGenerator.py, PfwBaseTranslator.py, domainGenerator.py |
| Start from files, plugins | File* | ParameterMgr.cpp load…, ParameterFrameworkConfiguration.cpp, FrameworkConfigurationLocation.cpp, PluginLocation.cpp, XmlFileIncluderElement.cpp, SystemClass.cpp |
| Subsystem objects, TEST subsystem | Obj* | SubsystemObject.cpp, test/test-subsystem/ |
| Threads | Thread* | ElementHandle.cpp, ParameterMgr.cpp (the calls that take the lock of the parameter memory) |
| Changes of criteria during an application | Race* | SelectionCriterion.cpp, CompoundRule.cpp, ConfigurableDomain.cpp, ConfigurableDomains.cpp (apply) |
| Client simulator | Sim* | tools/clientSimulator/clientsimulator: scenario, testGenerator (TestVectorFactory, TestLauncher), criterion, userInteraction |
| Further theorems | Tight* | theorems of several areas that the tests against wrong programs asked for |

`Demo.v` and `XmlDemo.v` are the example systems, and `DeclDemo.v` the example structure file, used by the non-vacuity examples.

The states over which the manager properties quantify are: `started` (any structure, criteria and domains that a settings file can
give), `reachable` (any command sequence from there), `reachable_typed` (the same, when raw bytes written by a client hold values of
their types), `history` (commands, setElementXML, imports, from any settings file; DomXmlHist.v).  C50_start shows that every
accepted settings file gives such a start.  The systems (`system_ok`, `names_ok`) are the ones that structure files make: C65_system_ok
and C65_names.

## 2. Representation choices

* Bytes and machine integers are `Z` with explicit ranges / `mod 2^n`; all
  wrap-arounds of the C++ are written explicitly.  Host is little endian (as assumed by
  `readInteger`/`writeInteger`).
* Strings are `list ascii`.
* The element tree is immutable after `loadStructure`; it is an inductive tree, and an
  element is designated by its position (list of child indices), standing for the C++ pointer.
  Mutable data hung on elements in C++ (attached domains) live in the state.
* Domains and configurations are designated by numbers standing for their addresses, fresh at each creation.
* `double` values in the fixed-point code are exact rationals: the only operations the code performs
  on them there are multiplications by powers of two, comparisons and `round`, which are
  exact on binary64 in the accepted range.  Reading and printing of binary32/binary64 texts round to nearest, ties to even.
* Hardware / plugin code (syncers) is an oracle: a syncer either succeeds or fails and its invocations
  are recorded in a trace, with the memory they see.
* Threads are modelled as interleavings of the atomic sections delimited by the
  `_blackboardMutex` lock and the unlocked reads of the flags (C32, C83); memory is sequentially consistent.
* An XML document is a tree of elements with attributes, and texts; comments and white space that libxml2 keeps are texts.
  Two documents are `like` each other when they have the same elements, attributes (first occurrence) and concatenated texts.

## 3. Properties

| Id | Property | Modelled | Proof | Status |
|----|----------|----------|-------|--------|
| C01 | Parameter memory: read-after-write and frame | `CParameterBlackboard` all accessors | list algebra on all offsets/sizes | partial, 5 theorems, 1 refutation |
| C02 | Structure layout: elements never overlap | `setOffset`, `getFootPrint` of all element kinds | induction on trees | proved, 4 theorems |
| C03 | Setting one parameter changes only that parameter | `accessValue` down to `doSet`/`doGet` for all kinds | C01 + C02 + codec lemmas | partial, 3 theorems, 1 refutation |
| C04 | Integer parameter: accepted values are in range and read back | `IntegerParameterType`, `convertTo` | arithmetic on all widths; refutation for mixed signedness | proved, 2 theorems |
| C05 | Integer handle API accepts exactly the values of the range | `IntegerParameterType`, `convertTo` | arithmetic on all widths; refutation for mixed signedness | partial, 1 theorem, 4 refutations |
| C06 | Enumeration parameter stores only declared values and round-trips | `EnumParameterType` | induction on value pairs; refutation for raw 32 bit | partial, 4 theorems, 4 refutations |
| C07 | Boolean parameter | `BooleanParameterType` | case analysis | proved, 2 theorems |
| C08 | Bit parameter: read-modify-write isolation | `BitParameterType`, `BitParameter` | bit-level extensionality (`Z.testbit`) | partial, 5 theorems, 1 refutation |
| C09 | Bit parameter rejects text that is not a number | `BitParameterType`, `BitParameter` | bit-level extensionality (`Z.testbit`) | partial, 1 theorem, 3 refutations |
| C10 | Fixed-point parameter: quantisation and round-trip | `FixedPointParameterType` text and double access, on exact rationals and correctly rounded reading of decimal texts | rational arithmetic | partial, 9 theorems, 1 refutation |
| C11 | String parameter bounds and round-trip | `StringParameter` + blackboard strings | list lemmas; refutation through `setAsBytes` | partial, 4 theorems, 3 refutations |
| C12 | Array parameter access | `ArrayParameter` | induction on value lists; refutation of atomicity | partial, 13 theorems, 4 refutations |
| C13 | Application rule semantics | rule AST and `matches` | induction against a propositional semantics | proved, 2 theorems |
| C14 | Rule text round-trip | `RuleParser`, `dump` character by character | induction on rules; refutations by computation | partial, 2 theorems, 2 refutations |
| C15 | Rule parser accepts only well-formed rules and never aborts | `RuleParser`, `dump` character by character | induction on rules; refutations by computation | partial, 2 theorems, 3 refutations |
| C16 | Criterion type: literal/number correspondence | `SelectionCriterionType` | invariant over histories | partial, 5 theorems, 1 refutation |
| C17 | Configuration selection: first applicable in order | `ConfigurableDomains::apply` and below, with sync trace | invariants and frame lemmas | proved, 2 theorems |
| C18 | Applied settings reach the parameters | `ConfigurableDomains::apply` and below, with sync trace | invariants and frame lemmas | proved, 3 theorems |
| C19 | Applying twice without a change does nothing | `ConfigurableDomains::apply` and below, with sync trace | invariants and frame lemmas | proved, 2 theorems |
| C20 | Synchronisation coverage and order | `ConfigurableDomains::apply` and below, with sync trace | invariants and frame lemmas | proved, 1 theorem |
| C21 | Domain/element association invariant | domain/configuration/area operations over the tree | invariants over histories, C01/C02 | proved, 2 theorems |
| C22 | Save/restore round-trip | domain/configuration/area operations over the tree | invariants over histories, C01/C02 | proved, 2 theorems |
| C23 | Splitting and merging elements preserves the settings | domain/configuration/area operations over the tree | invariants over histories, C01/C02 | proved, 3 theorems |
| C24 | Split reports its failure | `ConfigurableDomains::split` | refutation + partial | partial, 1 theorem, 2 refutations |
| C25 | Domain and configuration names are unique | name handling of create/rename | invariant over histories; refutation for empty name | partial, 1 theorem, 4 refutations |
| C26 | Last applied configuration never dangles | same state machine | invariants | proved, 1 theorem |
| C27 | Element sequence is a permutation | same state machine | invariants | partial, 1 theorem, 1 refutation |
| C28 | Tuning mode protects the settings | `ParameterMgr` command state machine | case analysis on commands, induction on histories | partial, 2 theorems, 2 refutations |
| C29 | Tuning mode freezes configuration application | `ParameterMgr` command state machine | case analysis on commands, induction on histories | proved, 2 theorems |
| C30 | Auto-sync off isolates the hardware | `ParameterMgr` command state machine | case analysis on commands, induction on histories | partial, 4 theorems, 2 refutations |
| C31 | Synchronisation failures are reported and do not stop the others | `SyncerSet::sync`, `restore` | induction on syncer lists | proved, 2 theorems |
| C32 | Client handles only write rogue parameters outside tuning mode | `ElementHandle::setAs` against `setTuningMode` as interleaved atomic steps | all schedules; refutation | partial, 2 theorems, 3 refutations |
| C33 | Rogue parameters | `isRogue`, `listRogueElements`, aggregator | induction on trees | proved, 3 theorems |
| C34 | Remote protocol round-trip | `Message`, `RequestMessage`, `AnswerMessage` on byte lists | round-trip, checksum arithmetic; refutation of memory safety | proved, 5 theorems, 1 refutation |
| C35 | Remote protocol detects corruption | `Message`, `RequestMessage`, `AnswerMessage` on byte lists | round-trip, checksum arithmetic; refutation of memory safety | proved, 3 theorems, 2 refutations |
| C36 | Remote protocol input is memory safe | `Message`, `RequestMessage`, `AnswerMessage` on byte lists | round-trip, checksum arithmetic; refutation of memory safety | partial, 2 theorems, 2 refutations |
| C37 | Element paths are unambiguous | `getPath`, `PathNavigator`, `findDescendant`, `ElementLocator` | induction on trees | partial, 3 theorems, 3 refutations |
| C38 | Tokenizer | `Tokenizer`, `join` | induction on texts | proved, 4 theorems |
| C39 | Number parsing never truncates | `convertTo` for integers | induction on digits | partial, 3 theorems, 1 refutation |
| C40 | At most one subsystem object covers a parameter | `Subsystem::mapSubsystemElements`, `handleMappingContext`, `InstanceConfigurableElement::map`, object creators | induction on the mapped tree; refutation for more than 32 keys | partial, 6 theorems, 1 refutation |
| C41 | Amendment of mapping values | `CSubsystem::formatMappingDataList`, `FormattedSubsystemObject` | induction on the text | partial, 4 theorems, 1 refutation |
| C42 | Mapping data parsing | `MappingData::init`, `addMappingData`, lookup | induction on the items | proved, 3 theorems |
| C43 | Settings export/import round-trip | `serializeXmlSettings` of all kinds, `get/setSettingsAsXML`, on XML trees | induction on trees over the codecs of C04-C12 and C55 | partial, 5 theorems, 4 refutations |
| C44 | Binary settings round-trip | `get/setSettingsAsBytes`, `setElementBytes` | C01; refutation | partial, 2 theorems, 1 refutation |
| C45 | setElementBytes command works | `get/setSettingsAsBytes`, `setElementBytes` | C01; refutation | partial, 2 theorems, 1 refutation |
| C46 | Remote commands only use the arguments they were given | command table with arity and arguments read | computation over the (finite) table and all argument lists | partial, 6 theorems, 1 refutation |
| C47 | Loading a structure terminates | component libraries, `TypeElement`/`ComponentType::populate`, `InstanceDefinition::createInstances` | exact characterisation of termination; refutation | partial, 6 theorems, 1 refutation |
| C48 | Back-synchronisation covers exactly the uncontrolled parameters | back-synchronisation aggregate | C33 machinery | partial, 6 theorems, 2 refutations |
| C49 | Handle access checks | handle checks | case analysis | partial, 5 theorems, 1 refutation |
| C50 | Domains export/import round-trip | `toXml`/`fromXml` of domains, configurations, rules, areas; import and export commands; settings file at the start | round trip by induction; invariant for arbitrary documents | partial, 7 theorems, 4 refutations |
| C51 | Created configurations are usable | validity flags of areas, `autoValidate`, imports | invariant over histories with imports; refutation | partial, 5 theorems, 1 refutation |
| C52 | Editing a recorded setting | `accessConfigurationValue` | on top of C21 | partial, 3 theorems, 3 refutations |
| C53 | Criterion state and pending changes | `SelectionCriterion` | histories | partial, 2 theorems, 1 refutation |
| C54 | Formatted criterion state | `getFormattedState` | bit-level extensionality; refutation for state 0 | partial, 1 theorem, 2 refutations |
| C55 | Floating point parameter codec | `FloatingPointParameterType`, binary32 rounding and the `%g`-like text, from scratch on integers and rationals | arithmetic | partial, 12 theorems, 4 refutations |
| C56 | Default values | `setDefaultValues` | induction on trees | partial, 4 theorems, 2 refutations |
| C57 | Parameters only hold values of their type | all writers of parameters | invariant over histories | proved, 3 theorems |
| C58 | Asking changes nothing | all commands of the table | case analysis | proved, 2 theorems |
| C59 | Every remote request gets an answer | commands, server loop | case analysis and C34 machinery | partial, 1 theorem, 1 refutation |
| C60 | Reading the mapping context of an object | `CMappingContext` | refutation and case analysis | partial, 3 theorems, 1 refutation |
| C61 | An array can be given mapping keys like a single element | mapping of arrays of elements | induction; refutation | partial, 2 theorems, 1 refutation |
| C62 | Every element created has its own path | names of created elements | induction; refutation | partial, 2 theorems, 1 refutation |
| C63 | Settings import is all or nothing | `setSettingsAsXML` on refused documents | refutation | partial, 0 theorems, 2 refutations |
| C64 | A refused import of domains changes nothing | domain imports on refused documents | case analysis over the import; refutation | partial, 3 theorems, 1 refutation |
| C65 | A structure file is refused, or gives exactly the parameters it declares, each able to hold its declared range | reading of structure files: declarations, libraries, instance definitions, subsystems | nested induction over the document; composition with C40, C47, C62; refutations | partial, 8 theorems, 8 refutations |
| C66 | Doubles and integer parameters: adaptations | `ParameterAdaptation` and its two subclasses, double multiplication and division with infinities and NaN, conversion to `int64_t`; `log` and `exp` are any functions | error bounds on rationals, induction-free arithmetic; refutations by evaluation | partial, 14 theorems, 6 refutations |
| C67 | An exported structure can be loaded again | `toXml` and `structureToXml` of the elements and types (documents as trees), with the reading of C65 | nested induction over the element, one round trip per attribute; error bound of the rounding of float bounds; refutations by evaluation | partial, 5 theorems, 4 refutations |
| C68 | The C interface: starting, criteria, parameters | the functions of the C interface over the manager; what the files hold is a parameter (`files`) | invariant over sequences of calls, composition with C32, C33, C48; refutations by evaluation | partial, 11 theorems, 8 refutations |
| C69 | Every editing command answers and does exactly what its name says on the list of domains | the commands of the manager on domains (C21 to C29), seen as a list of names, elements, orders and rules | refinement: the list after each command is a function of the list before, by case on the command | proved, 8 theorems |
| C70 | The listing, status and dump commands tell the truth | the answers of the commands as texts; reading and writing of XML by libxml2, the order of addresses, descriptions and units are parameters (`outside`) | induction over the tree, the rules and the attachments; the tree enumeration is proved sorted and complete; composition with C17, C33, C50 | partial, 27 theorems, 3 refutations |
| C71 | The test platform: creating criteria, setting states, starting, applying | the command table and handlers of the test platform as a function of the platform, the request and the surroundings (what the files give, the text of a load error) | case analysis per handler over C07, C68 and the command table; induction over the session; invariant that every obtainable criterion type is built by its creation | partial, 15 theorems, 8 refutations |
| C72 | A settings document means what it says | import_domains, import_domain and the start with a settings file (DomXmlModel.v); meaning of a document in DocSpec.v: rule_says, elems_say, own/source, order, records | Each reading function computes the relation of the specification (induction on the document); acceptance is an equivalence; completion of missing settings by the automatic validation; validation against the memory | partial, 5 theorems, 2 refutations |
| C73 | The domain generator writes the domains that its commands make | domainGeneratorConnector.cpp as a function from the input text and the files to the exit code and the document (GenModel.v); GenSpec.v: script, generator_start, all_do, exit_code | The lines split back into the words; criteria as in C68; commands as in C46 and C70; the document read back with C50 and loaded with C48 | partial, 6 theorems, 4 refutations |
| C74 | Starting from the files does what they say | the start from a configuration file: the configuration element, the plugins, the structure with its includes, the settings file, the remote server; documents, addresses and libraries come from an arbitrary environment | an exact characterisation (iff) through the splice of the included roots; settledness and soundness through C65 and the start theorems; monotony in the policy; refuted witnesses by computation | partial, 5 theorems, 4 refutations |
| C75 | Plugins are loaded in any order that works | the passes over the list of libraries that are not opened yet, the table of subsystem types | induction over the passes: what is opened opens in turn, what is left does not open; maximality for monotone environments; hence independence of the order | partial, 6 theorems, 1 refutation |
| C76 | A subsystem object touches its element and nothing else | the code of an object as a program of reads and writes of the next bytes, run on the main memory; the synchronisation of an object and its fallback to the default values; the start with such objects | induction over the program: a run on the memory is the action of the program on the bytes from the element on; frame of the default values; refinement of the start with answers | partial, 7 theorems, 3 refutations |
| C77 | What the TEST subsystem writes to its files is what it reads back | the objects of the TEST subsystem as such programs, with the text of their files; the files of a whole system | print then parse of each value, words of a text; induction over the values and over the syncers that send; C76 and C48 for the restart | partial, 8 theorems, 6 refutations |
| C78 | An EDD file becomes the commands that create what it says | EddParser.py function by function: the lines, the elements, the propagation, the commands (EddModel.v); EddSpec.v: places, rules that concern a place, settings, meaning of a line | the open elements of the parser as a stack, induction over what is written; propagation compared place by place with the specification; the rule texts are in the syntax of C15 | partial, 11 theorems, 6 refutations |
| C79 | What an EDD file says is what the framework gets | the models of C78 (EDD parser), C46 (commands), C73 (generator) put together; EddRunSpec.v: a domain and a configuration as a file says them | each request of the script means one command; what is seen of the domains is followed by C49's catalogue (induction over domains, configurations, parameters); a recorded value is kept by all later commands of the script; a script is carried out to its end or the generator aborts | partial, 4 theorems, 1 refutation |
| C80 | The settings file tool: from its files to the document | ToolModel.v: domainGenerator.py parseCriteria, parseEdd, generateDomainCommands, main, on top of the models of C78 and C73; ToolSpec.v: what a criteria line is | the greedy regular expression of a criteria line is inverted (last colon, blanks); the text piped to the connector is the script of C73; a prefix of requests (the imports) is followed, then C79's argument over several files | partial, 5 theorems, 5 refutations |
| C81 | The tool starts the framework from the target's configuration without the target's hardware | `configure` of hostConfig.py as a function of documents, composed with the start from files of C74 and the generator of C73 | the result is compared with a relation between documents (`adapted`) by induction on the document; what the framework reads in it follows from that relation; refutations: an absolute structure path, and a second use | partial, 6 theorems, 2 refutations |
| C82 | The exit code of the command line client tells whether the command succeeded | `main` of remote-process with the protocol of C34; the other side is any function of what it receives, then the server of C34 with the commands of C46 | case analysis of the reception for any peer; the round trips of C34 and the meaning of commands of C46 for the framework; induction on the script | proved, 4 theorems |
| C83 | Calls from several threads return what they return one after the other | threads with a program of calls each; the looks of a call without the lock, the wait, and the work under the lock as steps of a transition system | invariant: what a call saw without the lock still holds when it takes it; a measure bounds the steps; two refutations by executions no order of the calls explains | partial, 3 theorems, 2 refutations |
| C84 | Criteria may change while configurations are applied | the application with the criteria given at each look of a rule at a criterion, any state at each look; the two loops over the domains | induction on rules, configurations and domains: intervals of looks; the settings of the configuration last applied stay in the memory; the last sentence is false: three refutations | partial, 6 theorems, 4 refutations |
| C85 | What a scenario of the client simulator makes of the platform | the client simulator: criteria and their setters, test vectors, resolution and play of a scenario, menus; a Python exception that nothing catches ends the program | induction on the criteria and on the actions: the states in which configurations are applied; six refutations | partial, 6 theorems, 6 refutations |

## 4. Trusted base

* Coq's kernel.  No axiom is added.  `Print Assumptions` stands beneath every property theorem; for every one of them it answers
  "Closed under the global context".  Loading the standard library's ssreflect files brings seven constants of `Coq.ssr.ssrunder`
  that `coqchk` lists as parameters of a module type; no theorem depends on them.
* The fidelity of the model to the code (C++, and Python for the tools): each definition cites what it models.

Assumptions on the platform and environment:

* two's complement, little endian, 8-bit bytes, `int` and `uint32_t` of 32 bits, `size_t` and `double` of 64 bits, IEEE 754 rounding;
  left shifts of negative numbers as in two's complement; the "C" locale and libstdc++ streams (`convert.hpp`), `strtol` family
  saturating as in C11;
* `assert` compiled out (release build), `ALWAYS_ASSERT` kept (`Abort`);
* allocations succeed;
* a syncer called to send does not write to the parameter memory; a syncer called to read writes exactly the memory of its
  own element; logging has no effect on the state;
* sockets: the peer is a byte list ended by its closing; writes succeed;
* the text answers that are not modelled (version, showMapping, listCriteria XML, exports to a file) are oracles of the command
  environment, and they do not change the state (checked by reading the handlers).

Not modelled: of the client simulator, its own configuration files, the shell, the processes it launches and their logs; libxml2 (text to tree and back) and schema validation, which is off by default (with it, setElementXML always
fails: it looks for a schema named after the root element, which does not exist); XInclude; the opening of libraries (an arbitrary function of what is open already, C75) and what they do when opened; sockets; of several threads, the calls that do not take the lock (restore, save, import, domain edition, access to bytes and XML: the code lets them race with the others; setCriterionState is modelled during an application, C84, an integer being read at once), and the weak memory order of the unlocked reads of C83, which are data races in C++; log texts; error texts (only whether there is an error); the
Python bindings; of the C bindings, the error texts, the loggers and the release of memory (a parameter handle is the position of its
parameter, and what the files hold is a parameter of C68); in structure files, elements of the library at a place the schemas exclude (`UB`), the order in which errors are found; the domain Description attribute; in exported structures, Unit, Description and the ArrayLength of strings and bit parameters; `log` and `exp` of the C library (any functions, given as a record to the theorems of C66); adaptations are not part of the tree of the other chapters (given beside the type in C66), and a slope numerator of minus zero is read as zero;
`BinaryCopy` type punning beyond its byte-copy meaning; the skeleton and introspection subsystems; an exception thrown by a subsystem object (taken as the end of the process, although the loop of the remote server would catch it); of the TEST subsystem, its logs and failures of writes to an open file; of the domain generator, its arguments and error output, a second `start` (`UB`), and exceptions thrown inside a command (not told apart from the end of the process); of the EDD language, the m4 preprocessor, the arguments and messages of the scripts, and the other scripts of tools/xmlGenerator (the analysis and update scripts); the regular expressions are modelled as the functions of text that they are in Python with ASCII blanks, and `re.split` as before Python 3.7, where an empty match does not split (with a later Python, a criteria line is split into its characters); the arguments of domainGenerator.py are taken as parsed; of the test platform, a second `start` (`UB`: it loads over a loaded system), its socket
server and the text of a load error (a parameter of C71).

## 5. Findings

Each is a `_refuted` theorem with a witness unless said otherwise.

* `C01_access_check_wrap_refuted`: Without that bound the check can be defeated by the wrap-around: an offset past the end of the blackboard passes.
* `C03_overlapping_bits_refuted`: Nothing checks that the bit fields of a block are disjoint: with overlapping fields an accepted request changes the value of another parameter.
* `C05_signed_getter_refuted`: The signed getter sign-extends unsigned parameters.
* `C05_signed_setter_refuted`: The signed setter refuses valid values of a 32 bit unsigned parameter whose maximum exceeds INT_MAX.
* `C05_unsigned_setter_accepts_refuted`: An out of range one is accepted when both bounds are negative.
* `C05_unsigned_setter_refuted`: A valid value is refused by the unsigned setter when the lower bound is negative.
* `C06_numeric_literal_refuted`: A literal that looks like a number is shadowed by the number.
* `C06_raw_hexa_refuted`: Reading a 32 bit enumeration in raw hexadecimal shifts by the width of int.
* `C06_raw_overflow_refuted`: In raw space a number that does not fit the size is accepted, reduced to the width.
* `C06_raw_write_back_refuted`: The raw text of a negative 32 bit value is refused when written back.
* `C08_handle_truncates_refuted`: The unsigned getter drops the bits of a field beyond the 32nd.
* `C09_garbage_refuted`: Text that is no number at all is accepted as 0.
* `C09_misread_refuted`: Trailing characters are ignored, a leading zero means octal, and a minus sign wraps around.
* `C09_saturates_refuted`: Numbers that do not fit 64 bits become 2^64-1, which a 64 bit field accepts.
* `C10_write_back_refuted`: Unused bits set (by a raw access, bytes, or the hardware) are lost by a read and write back in real value space.
* `C11_embedded_nul_refuted`: A string with an embedded NUL is accepted and read back cut at the NUL.
* `C11_unterminated_end_refuted`: At the end of the memory the read runs past it.
* `C11_unterminated_refuted`: Bytes given without terminator (setElementBytes, setAsBytes, imported settings): the read returns the following parameter's data.
* `C12_get_element_refuted`: In the memory of a configuration (base offset), reading one element reads another place, or aborts.
* `C12_index_refuted`: Texts which are not an index are accepted as one.
* `C12_rejected_atomic_refuted`: A refused text for a whole array leaves its first values written.
* `C12_write_back_refuted`: Enumeration literals may contain a space: the text of the whole array is then refused.
* `C14_joined_value_refuted`: A rule on several bits of an inclusive criterion is accepted, but is printed without its value; giving back the text yields a rule with another meaning.
* `C14_unwritable_literal_refuted`: A literal with a space, which addValuePair accepts and an XML import can name in a rule, gives a text that is refused.
* `C15_abort_refuted`: A text that stops the process.
* `C15_ignored_text_refuted`: Text after a value, up to the next comma or closing brace, is ignored; so is a word alone between braces.
* `C15_last_root_refuted`: Two rules in the text: only the last one is kept.
* `C16_smallest_int_refuted`: The one value for which addValuePair has no defined result: the smallest int on an inclusive type ([iValue - 1] overflows).
* `C24_split_leaf_refuted`: Splitting an element that has no children is reported as a success too.
* `C24_split_reports_its_failure_refuted`: Success is reported though the element was not split: it is not associated to the domain, or it has no children.
* `C25_empty_configuration_names_refuted`: Two configurations of a domain may both have the empty name.
* `C25_empty_names_refuted`: Without this hypothesis: two domains of the same (empty) name, and likewise two configurations of a domain.
* `C25_import_refuted`: Two domains of the same name in one document are accepted.
* `C25_name_of_the_kind_refuted`: A domain that its own name does not designate: deleting it deletes another one.
* `C27_error_changes_nothing_refuted`: An error is reported, yet the sequence is changed.
* `C28_rules_protected_refuted`: Renaming a configuration, and changing its rule, also work out of tuning mode: the next application differs.
* `C28_settings_protected_refuted`: SetConfigurationParameter changes a recorded setting out of tuning mode; on the last applied configuration it changes the parameter itself.
* `C30_apply_refuted`: So does the application of configurations.
* `C30_handle_refuted`: The setters of a client handle push to the hardware though auto-sync is off.
* `C32_bytes_refuted`: The access by bytes is not protected: it changes a parameter of a domain, in tuning mode.
* `C32_race_domain_refuted`: The same for the domains: the parameter is put in a domain in between, and changed though it belongs to it.
* `C32_race_refuted`: Another thread enters tuning mode between the test and the commit: the set is then done in tuning mode.
* `C34_nul_refuted`: A text with a NUL is cut there.
* `C35_size_refuted`: Not protected: the size (a message cut short is accepted when the byte that follows happens to be the sum), and the order of the bytes of the data.
* `C35_swap_refuted`: Two bytes swapped in a message are not detected.
* `C36_overread_refuted`: Such a message exists: a string longer than the message.
* `C36_size_zero_refuted`: A size of zero ends the process.
* `C37_kind_name_refuted`: With a name equal to the kind name of an unnamed sibling too: the unnamed one cannot be reached.
* `C37_same_name_refuted`: With two siblings of the same name (the code accepts them, see C47) the path of the second designates the first.
* `C37_slash_refuted`: An element whose name holds a slash cannot be reached by its path.
* `C39_formfeed_refuted`: A leading form feed is not rejected by the white-space check and is skipped by the stream, so that a text which is not an integer literal is accepted.
* `C40_many_keys_refuted`: With more than 32 context keys, creating an object is undefined, whatever its mask (Subsystem.cpp:394).
* `C41_refuted`: The key 1 is defined, but "%1" is not replaced when it follows a "%2" that is not.
* `C43_enum_space_refuted`: False for a negative number of an enumeration: exported in the raw value space, refused in the real one (the document does not tell its value space).
* `C43_out_of_range_refuted`: False for the values out of the declared range that raw bytes, or the memory at start, give to a parameter.
* `C43_raw_hex_refuted`: False in the raw value space and the hexadecimal format: the exported text of a small floating point number, padded before its prefix, is refused.
* `C43_real_float_refuted`: False in the real value space: a floating point parameter is exported with six digits, and its import, accepted, gives another value.
* `C44_bit_parameter_refuted`: The value of a bit parameter cannot be saved and restored this way: its size is zero.
* `C45_set_bytes_refuted`: With as many bytes as the size of the element.
* `C46_argument_refuted`: SetSequenceAwareness with one argument reads a second one.
* `C47_self_refuted`: A component type that contains itself inside a parameter block is accepted (ComponentInstance.cpp:101 only compares with the direct parent), and the creation of its instances never ends.
* `C48_controlled_read_refuted`: A controlled parameter is read from the hardware too when its syncer serves an uncontrolled one; the recorded value is applied afterwards.
* `C48_lone_bit_not_read_refuted`: The synchroniser of a bit parameter mapped on its own is not used to read it at the start.
* `C49_empty_array_refuted`: In tuning mode an empty array given to a scalar is reported as done.
* `C50_awareness_refuted`: An unreadable SequenceAware attribute in a domain imported alone raises an exception that nothing catches.
* `C50_joined_value_refuted`: A rule may ask for several literals of an inclusive criterion at once: their joined value has no literal of its own, and is exported as an empty text, which is read as no literal at all.
* `C50_missing_child_refuted`: A document without the nesting of the schemas, when their validation is off: a child that does not exist is used.
* `C50_negative_number_refuted`: A negative number of an enumeration is exported in raw as the unsigned number of its bits: the import refuses the document that the export has just made, and all the domains are lost.
* `C51_single_import_refuted`: A domain imported alone without settings: its settings are never validated, and restoring its configuration zeroes the parameters.
* `C52_array_cell_refuted`: One cell of an array, which setParameter accepts, is refused.
* `C52_failure_changes_nothing_refuted`: The push to the hardware fails on the edited parameter: an error is reported, yet the setting and the parameter are changed.
* `C52_recorded_value_is_read_refuted`: What is read is not what is recorded: the configuration is the last applied one and the parameter was set since. The value really recorded appears when the other configuration is restored.
* `C53_wrap_refuted`: The count wraps: after 2^32 changes a criterion is reported as not modified.
* `C54_none_refuted`: An inclusive criterion in state 0, though "none" is declared for it, is formatted as a text that names nothing.
* `C54_undeclared_refuted`: States whose bits are not all declared: the undeclared bits are dropped silently.
* `C55_nan_refuted`: A memory word written through another path (a parent block, a back synchronisation) may not be a number: it reads "nan", which cannot be written back.
* `C55_raw_hex_write_back_refuted`: With hexadecimal output the padding zeros precede the "0x" prefix: the value of a small number cannot be written back.
* `C55_text_write_back_refuted`: The text of the real value space has six significant digits: writing it back may change the value.
* `C55_text_write_back_rejected_refuted`: The upper bound itself may print as a larger number, which is then refused.
* `C56_float_default_refuted`: The default of a floating point parameter is 0 even when its declared range excludes 0: the parameter then holds a value that it would refuse.
* `C56_initial_memory_refuted`: At start-up, before any default is set, the memory of a parameter is zero even when its range excludes zero.
* `C59_enumeration_refuted`: Asking in raw hexadecimal for a 32-bit enumeration has no defined answer.
* `C60_by_key_refuted`: A lookup by key gives the key, never the value (MappingContext.cpp:74).
* `C61_array_refuted`: Giving a context key to an array of blocks makes the mapping of the subsystem fail, although the key is given only once in the description and the same block without an array length is accepted.
* `C62_refuted`: A type may declare a child of the same name as a child of the type it extends: the second cannot be designated.
* `C63_atomic_refuted`: An import that is refused has changed the parameters before the refused text.
* `C63_space_leaks_refuted`: The ValueSpace attribute of one element is still in force for the elements that follow it.
* `C64_all_refuted`: A refused import of all the domains deletes them.
* `C65_bit_position_refuted`: Without the schemas, the position of a bit field may be far outside its block: the sum of the position and the size wraps.
* `C65_bit_size_refuted`: Without the schemas, a bit parameter without a size is not refused: the shift of its largest value is undefined.
* `C65_definition_order_refuted`: Without the schemas, an instance definition before the library is ignored: the code looks for "InstanceDefintion", does not find it and takes the last child. The subsystem is accepted without its parameters.
* `C65_enum_value_refuted`: A pair of an enumeration may have a number that its size cannot hold: the literal is declared and can never be set.
* `C65_fixed_point_bits_refuted`: 
* `C65_fixed_point_size_refuted`: Without the schemas (they are not validated by default), the size of a fixed point parameter may be 12 bits: one byte is kept for them.
* `C65_overlap_refuted`: Bit fields that overlap are accepted.
* `C65_subsystem_names_refuted`: Two subsystems of the same name are accepted; no path designates the elements of the second one.
* `C66_default_base_refuted`: The schema gives 10 as the default of LogarithmBase; the code uses e.
* `C66_no_floor_refuted`: A logarithmic adaptation without a floor is a valid declaration: its floor is minus infinity, and the conversion of minus infinity to an integer makes every setting undefined.
* `C66_null_slope_refuted`: A null denominator is refused, a null numerator is not: nothing can be told from what is read, be it an infinity or a NaN.
* `C66_out_of_range_refuted`: A number too large for the conversion to a 64 bit integer, an infinity or a NaN is not refused: the conversion is undefined.
* `C66_read_is_accepted_refuted`: With a minimum of 1, the double read from the parameter is refused.
* `C66_write_back_refuted`: The documented requirement f(f'(a)) = a (LogarithmicParameterAdaptation.h:53) fails for the linear adaptation: with a numerator of 49, the value 1 is read as 1/49, and writing this double stores 0.
* `C67_adaptation_refuted`: An integer parameter with an adaptation, as accepted in a structure file, has a document that is refused; and the document does not say which adaptation it is.
* `C67_float_bound_refuted`: The bounds of a floating point parameter are written with six decimals: a smaller minimum becomes 0, and the parameter read back accepts what the first one refuses.
* `C67_mapping_refuted`: The mapping is not exported: with the subsystem type of the first system, the file is accepted and the same elements are created, but no parameter is sent to the hardware any more.
* `C67_system_class_refuted`: The document of the whole system (getSystemClassXML) cannot be used as a structure file: it has no subsystem type and no library.
* `C68_any_value_refuted`: A criterion takes any number, also one that stands for none of its values.
* `C68_failed_start_refuted`: After a start that failed, criteria can be set and configurations applied: these calls report a success.
* `C68_failed_start_writes_refuted`: After a start refused for its settings, or because the remote server could not be started, parameters can be bound and set as well: the hardware is written by a framework reported as not started.
* `C68_retry_refuted`: A start that failed cannot be tried again: once the configuration is refused, the same handle refuses any other one as already started.
* `C68_staged_refuted`: A criterion change may reach the parameters without pfwApplyConfigurations: leaving the tuning mode, through the remote server, applies it.
* `C68_tuning_refuted`: In tuning mode an application of the configurations and a set of a parameter report a success and do nothing.
* `C68_unsigned_refuted`: 
* `C68_unsynchronised_refuted`: A set that the hardware does not take is reported as failed, but the value is stored and read.
* `C70_parameters_only_refuted`: "listParameters" lists an element that is not a parameter: a block without children. (Element.cpp:343-363 stops at the elements without children, whatever they are.)
* `C70_pending_refuted`: With a configuration named "<none>", the status does not tell: the same answer, and the end of the tuning mode applies it in one case and not in the other. (ConfigurableDomain.cpp:846-878.)
* `C70_properties_refuted`: The bounds of an 8 bit integer are written as the characters they number: a maximum of 10 is an end of line. (IntegerParameterType.h:277-280 writes a uint8_t.)
* `C71_any_number_refuted`: A number that is no state of the criterion is taken, and the states that follow it are not looked at.
* `C71_create_count_refuted`: A text that is no number at all is taken as the number 0: a criterion without states is created and the answer is "Done".
* `C71_create_list_refuted`: With a 32nd state, an inclusive criterion makes the platform compute the smallest int minus one.
* `C71_help_refuted`: The help describes the command for exclusive criteria as that for inclusive ones.
* `C71_number_name_refuted`: A state whose name is a number is not the one that its name sets: the number is taken first.
* `C71_same_name_refuted`: Two criteria can be created with the same name; only the first can then be set.
* `C71_schema_uri_refuted`: GetSchemaUri never answers the directory that was set: its text is replaced by "Done".
* `C71_state_name_refuted`: The states of an inclusive criterion are named after their number "in hexadecimal", but it is written in decimal: the state State_0x16 has the number 16, which is not 0x16.
* `C72_domain_names_refuted`: Two domains of the same name in one document are accepted, where createDomain refuses a second one: only the first can be reached by its name.
* `C72_rule_type_refuted`: A compound rule whose Type is neither "All" nor "Any" is not refused: it is read as "Any".
* `C73_fatal_code_refuted`: The usage says that the code is the number of errors, recoverable or not: after two failed commands a failed criterion gives 1.
* `C73_kind_refuted`: A criterion of a kind that does not exist, such as Inclusive: it is made as an exclusive one, and nothing tells it.
* `C73_many_values_refuted`: An inclusive criterion with 32 values: the last one is the undefined 1 << 31.
* `C73_never_started_refuted`: A generator that was never started: it still ends without an error and writes a document without domains.
* `C74_cast_refuted`: An element of another kind in the group of the plugins, or with its name, is used as if it were of the kind expected.
* `C74_no_name_refuted`: Without a SystemClassName the structure of a system of any name is accepted; the system has no name.
* `C74_port_refuted`: The schema lets the port be any positive number; one that does not fit on 16 bits is an exception that nothing catches, even when there is to be no remote interface.
* `C74_tuning_refuted`: So is a value of TuningAllowed that is not a boolean.
* `C75_same_type_refuted`: Two libraries that bring the same type: nothing says so, and the order of the files decides which one makes the subsystems.
* `C76_reads_neighbour_refuted`: Nothing stops an object from reading past its element: it is given the bytes of the neighbour.
* `C76_unsupported_out_of_range_refuted`: A subsystem that does not support reading back leaves in the memory what is there, zero at the start: the parameter then holds a value outside of its range, whereas a subsystem that fails gives it its default value.
* `C76_writes_neighbour_refuted`: Nor from writing past it: the synchronisation succeeds and another parameter has changed.
* `C77_blank_refuted`: A text with a blank comes back cut at the blank.
* `C77_out_of_range_refuted`: And one in the width of the parameter but outside of its range is accepted: a parameter between 5 and 1000 then holds 2000.
* `C77_same_name_refuted`: 
* `C77_short_file_refuted`: A file with fewer words than the array has values, or with something that is not a number, ends the process: the exception is not caught.
* `C77_string_parameter_refuted`: 
* `C77_too_large_refuted`: A value too large for the parameter is cut without a word: 511 read for a parameter of one byte is 255.
* `C78_added_once_refuted`: A parameter that a configuration sets twice is added twice to the domain: the parameter framework refuses the second addElement, and the generator ends with an error.
* `C78_every_conf_refuted`: A configuration written in a group of configurations of a group of domains is in no domain: no command creates it. Only the rules of such a group are used.
* `C78_no_crash_refuted`: A rule on a criterion whose name begins with ANY or ALL is taken as an operator, and the generator ends on a KeyError (EddParser.py:405 and 412).
* `C78_nothing_lost_refuted`: A component may be written in a group of configurations (EddParser.py:531 lets it there), but what it sets is silently left out: no configuration of the group sets it.
* `C78_order_of_file_refuted`: The parameters of a sequence-aware domain are not set in the order of the file: those that are directly in a configuration come before those of its components (EddParser.py:352-365 and 480-492).
* `C78_type_anywhere_refuted`: The README says that any configuration of the domain with the name of a type has its rules. One that is written before the type does not.
* `C79_empty_sequence_refuted`: 
* `C80_empty_line_refuted`: An empty line in the file of the criteria is not skipped: the tool ends with the code 1.
* `C80_first_colon_refuted`: Without a blank before the colon, the name takes all it can: a colon in a value changes the name of the criterion.
* `C80_no_values_refuted`: A criterion without values has one, without a name.
* `C80_one_word_refuted`: The type and the name may be one word.
* `C80_trailing_blank_refuted`: A blank at the end of a line of the criteria, that can not be seen, adds a value without a name to the criterion.
* `C81_absolute_path_refuted`: 
* `C81_twice_refuted`: Doing it twice is not the same as once.
* `C83_late_refuted`: The other way round: a command that sets a parameter looks whether the tuning mode is on before it waits for the lock. If the mode is switched off in between, its write succeeds after the end of the tuning mode.
* `C83_race_refuted`: Calls of several threads do not always return what they return in some order. A handle's setter looks whether the tuning mode is on before it waits for the lock. If the mode is switched on in between, its write comes after: a parameter that is read twice after the switch was accepted changes from one read to the next though nothing but the setter, without effect in the tuning mode, was called.
* `C84_missed_refuted`: One criterion changes once while a rule that names it twice is judged: the first configuration of the domain is not applied although its rule holds in all the states the criteria go through.
* `C84_mixed_refuted`: One criterion changes once between the domains: two configurations of two domains are applied together although their rules hold together in none of the states the criteria go through.
* `C84_torn_refuted`: Two criteria change one after the other while a rule is judged: a configuration is applied although its rule holds in none of the states the criteria go through. SelectionCriterion.cpp:63-86 takes no lock.
* `C84_unnoticed_refuted`: A criterion changes after the last look at it: the application counts the change as applied, although the configurations applied are those of the state before it and another configuration is the first applicable one (SelectionCriterion.cpp:55-58 resetModifiedStatus).
* `C85_choice_refuted`: A number greater than the last one of the menu ends the program, where a negative one or a word gives a message.
* `C85_empty_refuted`: An object that names no criterion is not one that changes none: it puts every criterion in its default state.
* `C85_menu_refuted`: A value whose spelling is part of the spelling of the current one is not offered.
* `C85_twice_refuted`: The entries are those of the time when the menu was opened: the same one twice ends the program.
* `C85_unknown_refuted`: A criterion that does not exist, a misspelt one, is not reported: the configurations are applied as they are.
* `C85_unset_refuted`: Unsetting the only value of a criterion, which should put it in its default state, ends the program; so does the entry offered for the default state itself, from the start.
* By reading only: the domain Description is lost by an export and import.

## 6. Tests of the theorems

`/verif/seeded/LOG.jsonl` lists the wrong programs tried: one definition of the model edited as a bug would, the whole development
rebuilt, and the theorems that failed.  Where all theorems survived, the line says why the edit is equivalent or which theorem
was added or tightened.
