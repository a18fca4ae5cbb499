{"id": "C01", "title": "Parameter memory: read-after-write and frame", "statement": "Writing N bytes (or an integer, or a string) at an offset of a parameter blackboard and reading the same range back returns what was written, every other byte of the blackboard keeps its value, the size never changes, and an access that does not fit inside the blackboard terminates the process without having modified it.", "quantifier": "every blackboard content and size, every offset, every size and every value written", "why_tests_cant": "offsets, sizes and contents are unbounded; tests only touch a few offsets of a few layouts", "anchors": ["parameter/ParameterBlackboard.cpp: CParameterBlackboard::writeInteger, readInteger, writeBytes, readBytes, writeString, assertValidAccess"]}
{"id": "C02", "title": "Structure layout: elements never overlap", "statement": "After the structure is loaded, the storage area of every element lies inside the area of its parent and inside the main blackboard, two elements neither of which is an ancestor of the other (and which are not bits of one block) occupy disjoint areas, and the size reported for a container is the sum of the sizes of its children.", "quantifier": "every element tree (any depth, any width, any parameter sizes, arrays, strings, bit blocks)", "why_tests_cant": "the set of structure files is infinite; tests load a few fixed ones", "anchors": ["parameter/ConfigurableElement.cpp: setOffset, getFootPrint", "parameter/BitParameterBlock.cpp: getFootPrint", "parameter/BitParameter.cpp: getFootPrint", "parameter/ArrayParameter.cpp: getFootPrint", "parameter/ParameterMgr.cpp: loadStructure"]}
{"id": "C03", "title": "Setting one parameter changes only that parameter", "statement": "A setParameter request on a path, whether accepted or rejected, leaves the value read back from every other parameter path unchanged; a rejected request on a scalar parameter leaves the whole blackboard unchanged.", "quantifier": "every structure, every blackboard content, every pair of distinct parameters, every value string", "why_tests_cant": "needs all pairs of parameters in all structures and all values", "anchors": ["parameter/Parameter.cpp: doSet", "parameter/BaseParameter.cpp: access", "parameter/BitParameter.cpp: doSet", "parameter/ConfigurableElement.cpp: accessValue"]}
{"id": "C04", "title": "Integer parameter: accepted values are in range and read back", "statement": "An integer parameter accepts a string exactly when it denotes (in decimal, or in hexadecimal as its memory word) a value of its declared width inside [Min, Max], and getParameter then returns the canonical representation of exactly that value.", "quantifier": "every width (8/16/32), signedness, Min/Max, value space, output format and every input string", "why_tests_cant": "the input string and the bounds range over unbounded sets", "anchors": ["parameter/IntegerParameterType.h: toBlackboard, fromBlackboard, checkValueAgainstRange", "utility/convert.hpp: convertTo"]}
{"id": "C05", "title": "Integer handle API accepts exactly the values of the range", "statement": "setAsInteger and setAsSignedInteger on an integer parameter succeed exactly when the given number lies in the parameter's [Min, Max], and the matching getter then returns that number.", "quantifier": "every width, signedness, Min <= Max, every 32 bit value, for both the signed and the unsigned setter", "why_tests_cant": "2^32 values times every (Min, Max) pair and both signednesses", "anchors": ["parameter/IntegerParameterType.h: doToBlackboard, doFromBlackboard", "parameter/ElementHandle.cpp: setAsInteger, setAsSignedInteger"]}
{"id": "C06", "title": "Enumeration parameter stores only declared values and round-trips", "statement": "An enumeration parameter only ever accepts one of its declared literals or (raw) numerical values; reading it returns the literal or number that was set, and the text obtained by reading can be written back with the same effect, in real, raw decimal and raw hexadecimal form.", "quantifier": "every list of value pairs, every size, every input string, both value spaces and output formats", "why_tests_cant": "unbounded sets of literals and numbers; raw-space round-trips are sampled by tests on one size only", "anchors": ["parameter/EnumParameterType.cpp: toBlackboard, fromBlackboard, isValid", "parameter/ParameterType.cpp: signExtend, makeEncodable"]}
{"id": "C07", "title": "Boolean parameter", "statement": "A boolean parameter accepts exactly the texts 0, 1, 0x0 and 0x1, in both value spaces, and reads back the same truth value; every other string is rejected with no effect.", "quantifier": "every string, both value spaces", "why_tests_cant": "infinitely many strings", "anchors": ["parameter/BooleanParameterType.cpp: toBlackboard, fromBlackboard"]}
{"id": "C08", "title": "Bit parameter: read-modify-write isolation", "statement": "Setting a bit parameter changes exactly the bits [Pos, Pos+Size) of its block, to the given value; the other bits of the block and the rest of the memory are preserved, values above the maximum are rejected and a get returns the value that was set.", "quantifier": "every block size, position, width, maximum, block content and value", "why_tests_cant": "2^64 block contents times all field layouts", "anchors": ["parameter/BitParameterType.cpp: toBlackboard, fromBlackboard, merge, getMask", "parameter/BitParameter.cpp: doSet, doGet"]}
{"id": "C09", "title": "Bit parameter rejects text that is not a number", "statement": "setParameter on a bit parameter rejects every string which is not a number, as the other parameter kinds do.", "quantifier": "every input string", "why_tests_cant": "infinitely many strings", "anchors": ["parameter/BitParameterType.cpp: toBlackboard(string)"]}
{"id": "C10", "title": "Fixed-point parameter: quantisation and round-trip", "statement": "A fixed-point parameter Qn.m accepts a real value exactly when it lies in the representable range, stores the nearest representable value (error at most half a quantum), and reading then writing back a value leaves the stored bits unchanged.", "quantifier": "every n, m, storage size and every real value that can be passed as a double", "why_tests_cant": "the value range is continuous and every (n, m, size) combination matters", "anchors": ["parameter/FixedPointParameterType.cpp: toBlackboard, fromBlackboard, doubleToBinaryQnm, binaryQnmToDouble, getRange"]}
{"id": "C11", "title": "String parameter bounds and round-trip", "statement": "A string parameter accepts exactly the strings not longer than MaxLength, reads back the same string, never writes outside its own area and a read never returns data of another parameter.", "quantifier": "every MaxLength, every string, every prior memory content and every way the bytes can have been set", "why_tests_cant": "unbounded strings and memory contents", "anchors": ["parameter/StringParameter.cpp: doSetValue, doGetValue", "parameter/ParameterBlackboard.cpp: writeString, readString", "parameter/ConfigurableElement.cpp: setSettingsAsBytes"]}
{"id": "C12", "title": "Array parameter access", "statement": "Setting an array parameter from index i with k values changes exactly elements i..i+k-1 to these values and is rejected when i+k exceeds the array length; getting element j returns element j; the whole-array text can be written back; a rejected request changes nothing.", "quantifier": "every array length, element type, start index, list of values", "why_tests_cant": "unbounded lengths and value lists", "anchors": ["parameter/ArrayParameter.cpp: setValues, getValues, getIndex, accessValue"]}
{"id": "C13", "title": "Application rule semantics", "statement": "A configuration is applicable exactly when its rule, read as a boolean formula (All = conjunction, Any = disjunction, Is/IsNot = equality on the criterion state, Includes/Excludes = bit containment), is true in the current criteria states; a configuration without a rule is never applicable.", "quantifier": "every rule tree of any depth and every assignment of criterion states", "why_tests_cant": "rule trees are unbounded and criterion states are 32 bit values", "anchors": ["parameter/CompoundRule.cpp: matches", "parameter/SelectionCriterionRule.cpp: matches", "parameter/SelectionCriterion.cpp: is, isNot, includes, excludes", "parameter/DomainConfiguration.cpp: isApplicable"]}
{"id": "C14", "title": "Rule text round-trip", "statement": "The text returned by getRule for a configuration, given back to setRule, is accepted and yields a rule with the same truth value in every criteria state.", "quantifier": "every rule that can be installed by setRule or by XML import", "why_tests_cant": "unbounded grammar", "anchors": ["parameter/CompoundRule.cpp: dump, parse", "parameter/SelectionCriterionRule.cpp: dump, parse", "parameter/RuleParser.cpp: parse, iterate, next"]}
{"id": "C15", "title": "Rule parser accepts only well-formed rules and never aborts", "statement": "setRule either installs the rule denoted by the text or reports an error and leaves the previous rule in place; it never terminates the process, and never silently ignores a part of the text.", "quantifier": "every input text and every criteria definition", "why_tests_cant": "every possible malformed text cannot be enumerated", "anchors": ["parameter/RuleParser.cpp: parse, iterate", "parameter/DomainConfiguration.cpp: setApplicationRule"]}
{"id": "C16", "title": "Criterion type: literal/number correspondence", "statement": "However value pairs are added to a criterion type, the accepted pairs form a one-to-one correspondence between literals and numbers; an inclusive type only holds zero and single-bit values; a rejected pair changes nothing; looking up a literal then its number gives back the literal.", "quantifier": "every sequence of addValuePair calls on both kinds of type", "why_tests_cant": "unbounded histories", "anchors": ["parameter/SelectionCriterionType.cpp: addValuePair, getNumericalValue, getLiteralValue"]}
{"id": "C17", "title": "Configuration selection: first applicable in order", "statement": "After applyConfigurations, the last applied configuration of each domain is the first one, in declaration order, whose rule matched the criteria; when none matches, the last applied one and the parameters of the domain are untouched.", "quantifier": "every set of domains, configurations, rules and criteria states", "why_tests_cant": "unbounded histories and configuration sets", "anchors": ["parameter/ConfigurableDomain.cpp: apply, findApplicableDomainConfiguration", "parameter/ConfigurableDomains.cpp: apply"]}
{"id": "C18", "title": "Applied settings reach the parameters", "statement": "After applyConfigurations changed the configuration of a domain, every parameter of the elements associated to the domain holds the value recorded in that configuration (unless another domain sharing the element was applied later), and parameters belonging to no changed domain keep their value.", "quantifier": "every structure, domain set, configuration contents, blackboard content", "why_tests_cant": "unbounded structures and contents", "anchors": ["parameter/ConfigurableDomain.cpp: apply", "parameter/DomainConfiguration.cpp: restore", "parameter/AreaConfiguration.cpp: restore", "parameter/BitwiseAreaConfiguration.cpp"]}
{"id": "C19", "title": "Applying twice without a change does nothing", "statement": "A second applyConfigurations, with no criteria change and no resynchronisation request in between, changes no parameter and triggers no hardware synchronisation.", "quantifier": "every state reachable by any history", "why_tests_cant": "needs every reachable state", "anchors": ["parameter/ConfigurableDomain.cpp: apply", "parameter/ConfigurableDomains.cpp: apply"]}
{"id": "C20", "title": "Synchronisation coverage and order", "statement": "During applyConfigurations, every subsystem object covering a parameter of a domain whose configuration changed is synchronised, after all sequence-unaware domains were written to the blackboard and exactly once for them; sequence-aware domains come after, in domain order, and inside one in the element order of the configuration.", "quantifier": "every structure, mapping and domain set", "why_tests_cant": "ordering over unbounded sets of domains and elements", "anchors": ["parameter/ConfigurableDomains.cpp: apply", "parameter/SyncerSet.cpp: sync", "parameter/DomainConfiguration.cpp: restore", "parameter/ConfigurableElement.cpp: fillSyncerSet"]}
{"id": "C21", "title": "Domain/element association invariant", "statement": "After any sequence of domain commands, no element associated to a domain is an ancestor of another element associated to the same domain nor listed twice, every configuration of the domain holds settings for exactly the associated elements, and an element lists a domain if and only if the domain lists the element.", "quantifier": "every history of create/delete domain, create/delete configuration, add/remove element, split, sequence commands", "why_tests_cant": "unbounded command histories", "anchors": ["parameter/ConfigurableDomain.cpp: addConfigurableElement, removeConfigurableElement, split, doAddConfigurableElement, doRemoveConfigurableElement, mergeAlreadyAssociatedDescendantConfigurableElements", "parameter/ConfigurableElement.cpp: addAttachedConfigurableDomain, removeAttachedConfigurableDomain"]}
{"id": "C22", "title": "Save/restore round-trip", "statement": "Saving a configuration and restoring it, with any changes to the parameters in between, gives back to all parameters of the domain the values they had when saving, and leaves every parameter outside of the domain untouched.", "quantifier": "every structure, set of associated elements (blocks, arrays, single bit parameters), blackboard content and intermediate change", "why_tests_cant": "unbounded contents and structures", "anchors": ["parameter/ConfigurableDomain.cpp: saveConfiguration, restoreConfiguration", "parameter/AreaConfiguration.cpp: save, restore", "parameter/BitwiseAreaConfiguration.cpp: copyTo, copyFrom"]}
{"id": "C23", "title": "Splitting and merging elements preserves the settings", "statement": "Splitting an associated element into its children, or associating an element whose descendants were already associated, changes for no configuration the value recorded for any parameter that was covered before.", "quantifier": "every structure, domain, configuration content", "why_tests_cant": "unbounded structures and contents", "anchors": ["parameter/ConfigurableDomain.cpp: split, mergeAlreadyAssociatedDescendantConfigurableElements", "parameter/DomainConfiguration.cpp: split, merge", "parameter/AreaConfiguration.cpp: copyToOuter, copyFromOuter", "parameter/BitwiseAreaConfiguration.cpp: copyToOuter, copyFromOuter"]}
{"id": "C24", "title": "Split reports its failure", "statement": "splitDomain reports success only when the element was split.", "quantifier": "every domain, every element", "why_tests_cant": "needs every element/domain pair", "anchors": ["parameter/ConfigurableDomains.cpp: split", "parameter/ConfigurableDomain.cpp: split"]}
{"id": "C25", "title": "Domain and configuration names are unique", "statement": "After any sequence of create, rename and delete commands, no two domains have the same name and no two configurations of one domain have the same name, so a name always designates the same object.", "quantifier": "every history of create/rename/delete commands with any names", "why_tests_cant": "unbounded histories and names", "anchors": ["parameter/ConfigurableDomains.cpp: createDomain, renameDomain", "parameter/ConfigurableDomain.cpp: createConfiguration, renameConfiguration", "parameter/Element.cpp: rename, findChild, getPathName"]}
{"id": "C26", "title": "Last applied configuration never dangles", "statement": "After any sequence of commands the last applied configuration reported for a domain is one of its existing configurations or <none>.", "quantifier": "every history of domain, configuration, apply and restore commands", "why_tests_cant": "unbounded histories", "anchors": ["parameter/ConfigurableDomain.cpp: deleteConfiguration, getLastAppliedConfigurationName, restoreConfiguration, apply"]}
{"id": "C27", "title": "Element sequence is a permutation", "statement": "setElementSequence puts the listed elements first, in the given order, keeps the relative order of the others, and neither loses nor duplicates an element; when it reports an error the sequence is unchanged.", "quantifier": "every sequence of associated elements and every list of paths", "why_tests_cant": "unbounded lists", "anchors": ["parameter/DomainConfiguration.cpp: setElementSequence"]}
{"id": "C28", "title": "Tuning mode protects the settings", "statement": "While tuning mode is off no command of the tuning interface changes a parameter, a domain, a configuration or a recorded setting.", "quantifier": "every command with any arguments, every state", "why_tests_cant": "all commands times all states", "anchors": ["parameter/ParameterMgr.cpp: checkTuningModeOn, accessParameterValue, accessConfigurationValue, setApplicationRule, clearApplicationRule, renameDomain, renameConfiguration"]}
{"id": "C29", "title": "Tuning mode freezes configuration application", "statement": "While tuning mode is on applyConfigurations changes nothing, and leaving tuning mode re-applies, in every domain having an applicable configuration, that configuration even if it was already applied.", "quantifier": "every history", "why_tests_cant": "unbounded histories", "anchors": ["parameter/ParameterMgr.cpp: applyConfigurations, setTuningMode, doApplyConfigurations", "parameter/ConfigurableDomain.cpp: apply"]}
{"id": "C30", "title": "Auto-sync off isolates the hardware", "statement": "While auto-sync is off, setting parameters does not touch the hardware; a successful sync or switching auto-sync back on pushes every subsystem object; switching back on fails and stays off when the push fails.", "quantifier": "every history of set/sync/autosync commands, every hardware failure pattern", "why_tests_cant": "unbounded histories and failure patterns", "anchors": ["parameter/ParameterMgr.cpp: setAutoSync, sync", "parameter/InstanceConfigurableElement.cpp: sync", "parameter/SyncerSet.cpp: sync"]}
{"id": "C31", "title": "Synchronisation failures are reported and do not stop the others", "statement": "When some subsystem objects fail to synchronise, all the others are still synchronised, the operation reports failure if and only if at least one failed, and every failure message is reported.", "quantifier": "every set of syncers and every failure pattern", "why_tests_cant": "exponentially many failure patterns", "anchors": ["parameter/SyncerSet.cpp: sync", "parameter/DomainConfiguration.cpp: restore"]}
{"id": "C32", "title": "Client handles only write rogue parameters outside tuning mode", "statement": "A set through a parameter handle changes the parameter only if the parameter belongs to no domain and tuning mode is off; in tuning mode it is silently ignored; this holds whatever the interleaving with tuning commands of another thread.", "quantifier": "every parameter, domain set and thread schedule", "why_tests_cant": "thread schedules cannot be enumerated by tests", "anchors": ["parameter/ElementHandle.cpp: setAs, checkSetValidity", "parameter/ParameterMgr.cpp: setTuningMode"]}
{"id": "C33", "title": "Rogue parameters", "statement": "A parameter is reported rogue exactly when neither it nor any of its ancestors is associated to a domain, and listRogueElements lists sub-trees that together cover exactly the rogue parameters, without overlap.", "quantifier": "every tree and every association of elements to domains", "why_tests_cant": "unbounded trees", "anchors": ["parameter/ConfigurableElement.cpp: isRogue, listRogueElements, belongsTo, hasNoDomainAssociated", "parameter/ConfigurableElementAggregator.cpp: doAggregate"]}
{"id": "C34", "title": "Remote protocol round-trip", "statement": "A request or an answer serialised by one peer and received by the other is decoded to the same command and (trimmed) arguments, resp. the same answer and status.", "quantifier": "every command, every argument list without NUL bytes and of representable size", "why_tests_cant": "unbounded messages", "anchors": ["remote-processor/Message.cpp: serialize, writeString, readString", "remote-processor/RequestMessage.cpp: fillDataToSend, collectReceivedData, trim", "remote-processor/AnswerMessage.cpp"]}
{"id": "C35", "title": "Remote protocol detects corruption", "statement": "A frame in which one byte of the message identifier or of the payload was altered is rejected by the receiver and no command is executed.", "quantifier": "every frame, every position, every altered value", "why_tests_cant": "unbounded frames", "anchors": ["remote-processor/Message.cpp: serialize, computeChecksum"]}
{"id": "C36", "title": "Remote protocol input is memory safe", "statement": "Whatever bytes are received, decoding a message reads only the received data: it yields a message or an error.", "quantifier": "every byte stream", "why_tests_cant": "every byte stream cannot be enumerated", "anchors": ["remote-processor/Message.cpp: readData, readString, isValidAccess"]}
{"id": "C37", "title": "Element paths are unambiguous", "statement": "The path printed for an element, given back to any command taking a path, designates that same element.", "quantifier": "every element tree with distinct sibling names free of '/', every element", "why_tests_cant": "unbounded trees", "anchors": ["parameter/Element.cpp: getPath, findDescendant, findChild, getPathName", "parameter/PathNavigator.cpp", "parameter/ElementLocator.cpp: locate"]}
{"id": "C38", "title": "Tokenizer", "statement": "Splitting a text returns exactly the maximal runs of characters that are not delimiters, in order; in the non-merging mode it returns the fields between consecutive delimiters; joining non-empty delimiter-free items with a delimiter and splitting gives back the items.", "quantifier": "every text and delimiter set", "why_tests_cant": "unbounded texts", "anchors": ["utility/Tokenizer.cpp: split", "utility/Utility.h: join, asString"]}
{"id": "C39", "title": "Number parsing never truncates", "statement": "Parsing an integer accepts exactly the optional sign and digits (decimal, or hexadecimal after 0x) of a value representable in the requested type, and returns that value; it never wraps around, truncates or ignores trailing characters.", "quantifier": "every string, every integer type", "why_tests_cant": "unbounded strings", "anchors": ["utility/convert.hpp: convertTo"]}
{"id": "C40", "title": "At most one subsystem object covers a parameter", "statement": "After the mapping of a structure, no element holding a subsystem object has an ancestor also holding one, so that each parameter is synchronised by at most one object; mapping keys are collected from the element and its ancestors, and an object is created only when all its required keys were given.", "quantifier": "every structure and mapping data", "why_tests_cant": "unbounded structures", "anchors": ["parameter/InstanceConfigurableElement.cpp: map, getSyncer, fillSyncerSetFromDescendant", "parameter/Subsystem.cpp: mapBegin, mapEnd, handleMappingContext, handleSubsystemObjectCreation"]}
{"id": "C41", "title": "Amendment of mapping values", "statement": "Every %1..%9 of a mapping value that designates a defined amendment key is replaced by the value of this key and the rest of the text is kept.", "quantifier": "every mapping value and every set of keys", "why_tests_cant": "unbounded texts", "anchors": ["parameter/FormattedSubsystemObject.cpp: formatMappingValue", "parameter/MappingContext.cpp: getItem, iSet"]}
{"id": "C42", "title": "Mapping data parsing", "statement": "A mapping string is accepted exactly when its comma-separated items have distinct keys, and a lookup returns the text following the first colon of the item with that key.", "quantifier": "every mapping string", "why_tests_cant": "unbounded texts", "anchors": ["parameter/MappingData.cpp: init, getValue, addValue"]}
{"id": "C43", "title": "Settings export/import round-trip", "statement": "The settings of an element exported by getElementXML and given back to setElementXML restore exactly the exported parameter values, whatever the parameters held in between, and touch no other parameter.", "quantifier": "every structure, every memory content reachable through the API, both value spaces and formats", "why_tests_cant": "unbounded structures and contents", "anchors": ["parameter/ConfigurableElement.cpp: serializeXmlSettings", "parameter/BaseParameter.cpp: serializeXmlSettings", "parameter/ParameterMgr.cpp: getSettingsAsXML, setSettingsAsXML"]}
{"id": "C44", "title": "Binary settings round-trip", "statement": "getAsBytes followed later by setAsBytes with the same bytes restores the element's memory exactly; setAsBytes with a wrong length is rejected without effect and no call touches other elements.", "quantifier": "every element, every memory content, every byte list", "why_tests_cant": "unbounded contents", "anchors": ["parameter/ConfigurableElement.cpp: getSettingsAsBytes, setSettingsAsBytes"]}
{"id": "C45", "title": "setElementBytes command works", "statement": "setElementBytes with as many bytes as the element's size sets the element to these bytes.", "quantifier": "every element, every byte list", "why_tests_cant": "every byte list", "anchors": ["parameter/ParameterMgr.cpp: setElementBytesCommandProcess"]}
{"id": "C46", "title": "Remote commands only use the arguments they were given", "statement": "No remote command, whatever the number of arguments supplied, reads an argument that was not supplied; with too few arguments the usage is shown and nothing happens.", "quantifier": "every command of the table, every argument list", "why_tests_cant": "argument lists are unbounded", "anchors": ["parameter/ParameterMgr.cpp: gastRemoteCommandParserItems and the *CommandProcess functions", "remote-processor/RemoteCommandHandlerTemplate.h: parse"]}
{"id": "C47", "title": "Loading a structure terminates", "statement": "Instantiating any accepted component library terminates: a component type that would contain itself is rejected with an error.", "quantifier": "every component library", "why_tests_cant": "unbounded libraries", "anchors": ["parameter/ComponentType.cpp: fromXml, populate", "parameter/ComponentInstance.cpp: fromXml, populate", "parameter/ComponentLibrary.cpp: getComponentType"]}
{"id": "C48", "title": "Back-synchronisation covers exactly the uncontrolled parameters", "statement": "At start-up the memory of every parameter that is in no domain with a usable configuration is read from the hardware, and no parameter controlled by such a domain is.", "quantifier": "every structure and domain set", "why_tests_cant": "unbounded structures", "anchors": ["parameter/BackSynchronizer.h", "parameter/ConfigurableElementAggregator.cpp: doAggregate", "parameter/HardwareBackSynchronizer.cpp", "parameter/ConfigurableElement.cpp: hasNoValidDomainAssociated"]}
{"id": "C49", "title": "Handle access checks", "statement": "Through an element handle, array accessors succeed only on arrays and with exactly the array's length, scalar accessors only on scalars, setters only on parameters; any mismatch is reported as an error and has no effect.", "quantifier": "every element, accessor kind and length", "why_tests_cant": "unbounded combinations", "anchors": ["parameter/ElementHandle.cpp: checkGetValidity, checkSetValidity, setAs, getAs"]}
{"id": "C50", "title": "Domains export/import round-trip", "statement": "Exporting the domains with settings and importing the result gives domains with the same names, sequence awareness, configurations, rules, element sequences and recorded settings.", "quantifier": "every set of domains reachable by commands", "why_tests_cant": "unbounded domain sets", "anchors": ["parameter/ConfigurableDomain.cpp: toXml, fromXml", "parameter/DomainConfiguration.cpp: parseSettings, composeSettings", "parameter/ConfigurableDomains.cpp: toXml"]}
{"id": "C51", "title": "Created configurations are usable", "statement": "After any sequence of commands every configuration of every domain holds valid settings for each associated element, so that applying or restoring it never copies uninitialised settings.", "quantifier": "every history of domain commands and imports", "why_tests_cant": "unbounded histories", "anchors": ["parameter/ConfigurableDomain.cpp: createConfiguration, autoValidateConfiguration, addConfigurableElement, validate", "parameter/AreaConfiguration.cpp: validate, validateAgainst, copyFromOuter, copyToOuter", "parameter/ParameterMgr.cpp: importSingleDomainXml"]}
{"id": "C52", "title": "Editing a recorded setting", "statement": "setConfigurationParameter changes exactly the named parameter of the named configuration, also changes the live parameter exactly when that configuration is the last applied one, and getConfigurationParameter then returns the value.", "quantifier": "every domain, configuration, element and value", "why_tests_cant": "unbounded combinations", "anchors": ["parameter/ParameterMgr.cpp: accessConfigurationValue", "parameter/ConfigurableDomains.cpp: findConfigurationBlackboard", "parameter/ConfigurableDomain.cpp: findConfigurationBlackboard"]}
{"id": "C53", "title": "Criterion state and pending changes", "statement": "Setting a criterion to its current state is not a change; otherwise the new state is the one used by the rules from then on, whatever the order of settings, until applyConfigurations resets the modification count.", "quantifier": "every sequence of setCriterionState/applyConfigurations calls", "why_tests_cant": "unbounded histories", "anchors": ["parameter/SelectionCriterion.cpp: setCriterionState, resetModifiedStatus"]}
{"id": "C54", "title": "Formatted criterion state", "statement": "The textual form of a criterion's state, as shown to users, is a value text which names that state again.", "quantifier": "every criterion type built through the API and every state", "why_tests_cant": "unbounded types, 2^31 states", "anchors": ["parameter/SelectionCriterionType.cpp: getFormattedState, getNumericalValue"]}
{"id": "C55", "title": "Floating point parameter codec", "statement": "Setting a floating point parameter from a double or a decimal text stores the nearest single precision number when it lies within the declared bounds and refuses anything else (infinities and NaN included) without any effect; a number read through a handle or as a raw word can be written back unchanged.", "quantifier": "every bound pair, double, text and 32 bit memory word", "why_tests_cant": "2^32 words, unbounded texts, rounding at every magnitude", "anchors": ["parameter/FloatingPointParameterType.cpp: toBlackboard, fromBlackboard, checkValueAgainstRange"]}
{"id": "C56", "title": "Default values", "statement": "When the framework sets an element to its default values, every parameter below it gets a value it would itself accept: an integer its Min, an enumeration its first literal, a string the empty text, the others zero; nothing outside the element changes.", "quantifier": "every structure, element and memory content", "why_tests_cant": "unbounded structures and types", "anchors": ["parameter/ConfigurableElement.cpp: setDefaultValues", "parameter/Parameter.cpp: setDefaultValues", "parameter/ArrayParameter.cpp: setDefaultValues", "parameter/BitParameterBlock.cpp: setDefaultValues", "parameter/StringParameter.cpp: setDefaultValues", "parameter/ParameterType.cpp: getDefaultValue"]}
{"id": "C57", "title": "Parameters only hold values of their type", "statement": "Whatever commands are sent, as long as no client writes raw bytes over it, a parameter that starts with a value of its type always holds one: its live value is one the parameter would itself accept (integers and enumerations within the declared range or list, fixed point words within the declared width, strings terminated within their maximum length), and so is every value recorded for it in a configuration. A parameter that no command edits only ever gets values that were already present in the live memory or in a configuration.", "quantifier": "every structure, initial memory, domain set and finite sequence of commands", "why_tests_cant": "unbounded command histories, every structure and value type", "anchors": ["parameter/Parameter.cpp", "parameter/BaseParameter.cpp", "parameter/ArrayParameter.cpp", "parameter/BitParameter.cpp", "parameter/StringParameter.cpp", "parameter/AreaConfiguration.cpp: save, restore", "parameter/ParameterMgr.cpp"]}
{"id": "C58", "title": "Asking changes nothing", "statement": "A remote command that asks for something (help, version, status and the get, list, show, dump and export commands) leaves the parameters, domains, configurations, modes and criteria as they were, whatever its arguments. What an accepted switch command (tuning mode, value space, output format, auto-sync) was given is what the matching get command then answers.", "quantifier": "every structure, state, command name and argument list", "why_tests_cant": "unbounded states and argument lists", "anchors": ["parameter/ParameterMgr.cpp: remote command handlers 900-2100", "remote-processor/RemoteCommandHandlerTemplate.h: remoteCommandProcess"]}
{"id": "C59", "title": "Every remote request gets an answer", "statement": "Whatever its command and arguments, a remote request is answered: the framework neither stops nor reads or writes outside what it owns while processing it, in any state that typed commands can lead to.", "quantifier": "every structure, reachable state, command name and argument list", "why_tests_cant": "unbounded states, paths and argument lists; undefined behaviour is not observable by a test", "anchors": ["parameter/ParameterMgr.cpp: remote command handlers", "parameter/EnumParameterType.cpp: fromBlackboard", "parameter/ParameterType.cpp: makeEncodable", "remote-processor/RemoteCommandHandlerTemplate.h: remoteCommandProcess"]}
{"id": "C60", "title": "Reading the mapping context of an object", "statement": "A subsystem object reads the value of a context key it was given by the index of this key, as a text or as an integer (0 when the key was not given), and by the name of the key.", "quantifier": "every structure, every set of context keys and every key", "why_tests_cant": "unbounded structures and sets of keys", "anchors": ["parameter/MappingContext.cpp: getItem, getItemAsInteger, iSet, setItem", "parameter/MappingContext.h"]}
{"id": "C61", "title": "An array can be given mapping keys like a single element", "statement": "A context key put in the Mapping attribute of an array of blocks or components applies to the entries of the array exactly as it applies to the content of a single block: the mapping succeeds for the array when it succeeds for the block without an array length; with the key of an object creator, the whole array is one object.", "quantifier": "every component library, instance definition, subsystem and array", "why_tests_cant": "unbounded structures; whether a key is given twice depends on the copies made at instantiation", "anchors": ["parameter/ParameterBlockType.cpp: populate", "parameter/ComponentInstance.cpp: populate, getMappingData", "parameter/Subsystem.cpp: mapSubsystemElements, handleMappingContext"]}
{"id": "C62", "title": "Every element created has its own path", "statement": "When the sibling names of a description are distinct, the elements created from it, including array entries and the children brought by Extends, have pairwise distinct paths, so that each of them can be designated.", "quantifier": "every component library, instance definition and set of subsystems", "why_tests_cant": "unbounded structures", "anchors": ["parameter/ComponentType.cpp: populate", "parameter/ParameterBlockType.cpp: populate", "parameter/Element.cpp: findChild, getPath"]}
{"id": "C63", "title": "Settings import is all or nothing", "statement": "When setElementXML refuses a document, no parameter has changed and nothing was sent to the hardware; and the text given for a parameter is read according to that parameter's own element in the document.", "quantifier": "every structure, document and state", "why_tests_cant": "a document is refused after any number of parameters; attributes interact across arbitrary documents", "anchors": ["parameter/ConfigurableElement.cpp: serializeXmlSettings", "parameter/Parameter.cpp: serializeXmlSettings", "parameter/FixedPointParameterType.cpp: handleValueSpaceAttribute", "parameter/ParameterMgr.cpp: setSettingsAsXML"]}
{"id": "C64", "title": "A refused import of domains changes nothing", "statement": "When the import of a domains document or of one domain is refused, the domains, their configurations and the elements they own are those from before the request; an accepted import of one domain adds that domain and takes away at most the one it overwrites.", "quantifier": "every document, accepted or not, every state reached by commands and earlier imports, with and without settings, with and without overwriting", "why_tests_cant": "The import works on the live objects and has many points of refusal (root, criteria, verbs, values, paths, ownership, settings texts): a test tries some documents on some states.", "anchors": ["parameter/ParameterMgr.cpp:importDomainsXml", "parameter/ParameterMgr.cpp:importSingleDomainXml", "parameter/ParameterMgr.cpp:xmlParse", "parameter/ConfigurableDomains.cpp:addDomain", "parameter/ConfigurableDomain.cpp:fromXml"]}
{"id": "C65", "title": "A structure file is refused, or gives exactly the parameters it declares, each able to hold its declared range", "statement": "Starting with a structure file always ends, with a system or with an error. It is accepted only if every declaration is meaningful: known sizes, a minimum not above the maximum, both encodable in the size, bit fields inside their block. The elements of the system are then exactly the ones declared, in order, with the declared types, sizes, ranges, lengths and mapping, types being taken in the library of their subsystem. Such a system satisfies what every other property asks of a system: well formed types, bit fields that do not overlap, one subsystem object per parameter, one element per path.", "quantifier": "Every structure document (any number and nesting of libraries, types, blocks, parameters, attributes and texts), every set of subsystem plugins.", "why_tests_cant": "The attributes are texts converted and checked by different code for each kind of parameter, with defaults and wrapping additions; a test loads a few files. That everything accepted is sound is a statement about all of them.", "anchors": ["parameter/IntegerParameterType.h:fromXml", "parameter/EnumParameterType.cpp:fromXml", "parameter/FixedPointParameterType.cpp:fromXml", "parameter/FloatingPointParameterType.cpp:fromXml", "parameter/BitParameterType.cpp:fromXml", "parameter/BitParameterBlockType.cpp:fromXml", "parameter/StringParameterType.cpp:fromXml", "parameter/TypeElement.cpp:fromXml", "parameter/ComponentLibrary.cpp:fromXml", "parameter/Subsystem.cpp:structureFromXml", "parameter/Element.cpp:fromXml"]}
{"id": "C66", "title": "Doubles and integer parameters: adaptations", "statement": "setAsDouble on an integer parameter with an adaptation either is refused or stores the scaled number without its fractional part plus the offset, always within the declared range and without touching anything else; a rising slope keeps the order; what is read afterwards is within one step; a value read and written back is unchanged when the operations are exact, and otherwise moves at most one step towards the offset; a logarithmic adaptation never stores less than its floor; without an adaptation there is no double access. (Refuted: f(f'(a)) = a; the double read is always accepted; every double is accepted or refused; a floor is optional; the default base is the schema's; the numerator is checked like the denominator.)", "quantifier": "every integer type, linear or logarithmic adaptation, double, memory; every C library log and exp", "why_tests_cant": "The slope, the offset and the double are real numbers with 2^64 values each, and the failures depend on the rounding of one pair of them; a test tries slopes that divide well.", "anchors": ["parameter/ParameterAdaptation.cpp:fromUserValue", "parameter/LinearParameterAdaptation.cpp:fromUserValue", "parameter/LinearParameterAdaptation.cpp:toUserValue", "parameter/LogarithmicParameterAdaptation.cpp:fromUserValue", "parameter/LogarithmicParameterAdaptation.cpp:toUserValue", "parameter/IntegerParameterType.h:toBlackboard", "parameter/IntegerParameterType.h:fromBlackboard", "parameter/BaseIntegerParameterType.cpp"]}
{"id": "C67", "title": "An exported structure can be loaded again", "statement": "The structure documents of the elements of a subsystem (getElementStructureXML, getStructureAsXML), put back in the instance definition of a structure file, declare the same elements: same names, order, types, ranges, bit fields and lengths; the parameters have the same offsets and paths and accept, store and show the same values. Elements with the same document have the same structure. Proved for float bounds that six decimals can tell, components becoming blocks. (Refuted: float bounds are kept; an adaptation is kept; the mapping is kept; the document of the whole system is a structure file.)", "quantifier": "every structure, every component library beside it, every set of subsystem plugins", "why_tests_cant": "unbounded structures; the writer and the reader of each attribute are different code, and the failures depend on the digits of a bound", "anchors": ["parameter/Element.cpp:toXml", "parameter/ConfigurableElement.h:structureToXml", "parameter/IntegerParameterType.h:toXml", "parameter/EnumParameterType.cpp:toXml", "parameter/EnumValuePair.cpp:toXml", "parameter/FixedPointParameterType.cpp:toXml", "parameter/FloatingPointParameterType.cpp:toXml", "parameter/StringParameterType.cpp:toXml", "parameter/BitParameterBlock.h:structureToXml", "parameter/BitParameterType.cpp:toXml", "parameter/TypeElement.cpp:toXml", "parameter/ParameterMgr.cpp:getElementStructureXMLCommandProcess", "parameter/ElementHandle.cpp:getStructureAsXML"]}
{"id": "C68", "title": "The C interface: starting, criteria, parameters", "statement": "A start is refused when the description of the criteria cannot be used (a missing or repeated name, missing or repeated values); otherwise, with files that load, it succeeds, the criteria are the described ones with state 0, and every call of a session (set and get of criteria, application of configurations, binding, reading and writing parameters, tuning) answers a success or a failure without undefined behaviour or termination. Before the start every call fails and changes nothing. A criterion reads back as last set, whatever calls are made in between; it affects no parameter until the configurations are applied. A path binds exactly when it names a parameter. A set of an integer or a text parameter outside of domains succeeds exactly when the value is acceptable, reads back as the value, changes no other parameter and no domain; a parameter of a domain cannot be written.", "quantifier": "all criteria descriptions, structures, settings files, sequences of calls, paths and values", "why_tests_cant": "the sequences of calls, the structures and the values are unbounded, and a claim that nothing else changes ranges over all parameters of all structures", "anchors": ["bindings/c/ParameterFramework.cpp: pfwStart, createCriteria, pfwSetCriterion, pfwGetCriterion, pfwApplyConfigurations, pfwBindParameter, pfwGetIntParameter, pfwSetIntParameter, pfwGetStringParameter, pfwSetStringParameter", "parameter/ParameterMgrPlatformConnector.cpp", "parameter/ParameterMgr.cpp: load, createParameterHandle", "parameter/ElementHandle.cpp"]}
{"id": "C69", "title": "Every editing command answers and does exactly what its name says on the list of domains", "statement": "Seen as a list of domains, each with a name, an awareness flag, elements in order and configurations with a name, a rule and an order of elements, every editing command (create, delete, rename, awareness, save, add, remove, split, sequence, rules) gives exactly the answer and the list that a short description on lists gives, and changes nothing else: not the memory, the hardware, the criteria nor the modes. The other commands never change that list. Their answers are determined: tuning mode succeeds exactly when it changes the mode and is allowed, a restore fails exactly when the target is missing or the hardware refuses, a set fails exactly when there is no parameter, the value is refused or the hardware refuses.", "quantifier": "every structure, every state reached by commands, every command and argument", "why_tests_cant": "The claim is an equality between the program and a description for all states and names; a test compares a few lists, and rarely the answers of the refused requests or that the rest is unchanged.", "anchors": ["parameter/ConfigurableDomains.cpp", "parameter/ConfigurableDomain.cpp", "parameter/DomainConfiguration.cpp:setElementSequence", "parameter/ParameterMgr.cpp:createDomain", "parameter/ParameterMgr.cpp:setTuningMode", "parameter/ParameterMgr.cpp:restoreConfiguration", "parameter/ParameterMgr.cpp:addConfigurableElementToDomain", "parameter/ParameterMgr.cpp:split", "parameter/ElementHandle.cpp:setAsBytes"]}
{"id": "C70", "title": "The listing, status and dump commands tell the truth", "statement": "What a client reads is what there is. listElements answers an element and its children in order with their kinds; listParameters every parameter below, once, in the order of the structure, and each listed path designates its element. listAssociatedDomains, listBelongingDomains, listAssociatedElements, listConflictingElements and listRogueElements name exactly the domains that have, hold or share the elements, and exactly the elements concerned. status shows the modes, the subsystems, and for each domain the configuration last applied and the one that the next application will take. dumpElement shows every element with the value getParameter answers, dumpDomains every rule. listCriteria, getElementBytes, showProperties and help show all the criteria, bytes, properties and commands. The text of getDomainsWithSettingsXML given to setDomainsWithSettingsXML makes the same domains.", "quantifier": "every structure, every state reached by commands, every path and argument; every order of the addresses of the elements", "why_tests_cant": "A listing is right when nothing is missing, repeated or invented, for trees, domains and rules of any size; a test compares the text of one example.", "anchors": ["parameter/Element.cpp:listQualifiedPaths", "parameter/Element.cpp:dumpContent", "parameter/Element.cpp:showProperties", "parameter/ConfigurableElement.cpp:listAssociatedDomains", "parameter/ConfigurableElement.cpp:listBelongingDomains", "parameter/ConfigurableDomains.cpp:listAssociatedElements", "parameter/ConfigurableDomains.cpp:listConflictingElements", "parameter/ConfigurableDomains.cpp:listLastAppliedConfigurations", "parameter/ConfigurableDomain.cpp:getPendingConfigurationName", "parameter/SelectionCriterion.cpp:getFormattedDescription", "parameter/ParameterMgr.cpp:statusCommandProcess", "parameter/ParameterMgr.cpp:getElementBytesCommandProcess", "remote-processor/RemoteCommandHandlerTemplate.h:helpCommandProcess"]}
{"id": "C71", "title": "The test platform: creating criteria, setting states, starting, applying", "statement": "A client that drives the framework through the test platform gets what it asked for. A criterion created from a list of states has exactly those states, numbered in order (one bit each for an inclusive one), or the request is refused because of a repeated or reserved name and nothing changes; from a count, that many states. Setting a state by number or by names changes the state of the criterion of that name and nothing else, or is refused and changes nothing; the state then stays until it is set again, through the start, applications and other requests. A policy reads back as set and cannot be changed once started. A start on good files runs the framework with the criteria and states created before; a failed one says why and does not run it. Once started, every request is answered and keeps the framework in a state that commands reach; unknown or too short requests are refused without effect. (Refuted: 32 inclusive states; a count that is no number is refused; the names of inclusive states are hexadecimal; getSchemaUri answers the directory; a state name that is a number can be set by name; a number outside of the states is refused; two criteria cannot have the same name; the help describes each command.)", "quantifier": "every sequence of requests, every list, count, name and policy, every structure and settings files", "why_tests_cant": "Requests come in any order and number; a test plays a few scripts, and does not look at what a refused request left behind.", "anchors": ["test/test-platform/TestPlatform.cpp:CTestPlatform", "test/test-platform/TestPlatform.cpp:createExclusiveSelectionCriterionFromStateList", "test/test-platform/TestPlatform.cpp:createInclusiveSelectionCriterion", "test/test-platform/TestPlatform.cpp:setCriterionState", "test/test-platform/TestPlatform.cpp:startParameterMgr", "test/test-platform/TestPlatform.cpp:applyConfigurations", "test/test-platform/TestPlatform.cpp:getter", "test/test-platform/TestPlatform.cpp:setter"]}
{"id": "C72", "title": "A settings document means what it says", "statement": "Importing a domains document that follows the schemas gives exactly the domains of the document, in its order: their names, sequence awareness, associated elements (one path after the other, an element replacing those it contains), configurations with their rules, the order of the elements in each configuration, and for each element of each configuration the recorded values that the texts give; a configuration without its own setting of an element gets that of the first configuration that has one, and failing that the values of the memory. The document is accepted if and only if it is for the system and every rule, path, configuration name and text in it can be read; a refused one leaves no domain (all the domains) or changes nothing (one domain). The same reading is used for the settings file at the start.", "quantifier": "all structures with distinct sibling names, all states reached by any history of commands and imports, all documents of the nesting and keys of the schemas, with and without settings", "why_tests_cant": "the claim covers every document and every structure, including partial settings, several blocks for one configuration and settings in any order; a test shows a few files", "anchors": ["parameter/ConfigurableDomain.cpp: fromXml, parseDomainConfigurations, parseConfigurableElements, parseSettings, autoValidateAll", "parameter/DomainConfiguration.cpp: parseSettings, validateAgainst", "parameter/CompoundRule.cpp: fromXml", "parameter/SelectionCriterionRule.cpp: fromXml", "parameter/ParameterMgr.cpp: importDomainsXml, importSingleDomainXml, loadSettingsFromConfigFile"]}
{"id": "C73", "title": "The domain generator writes the domains that its commands make", "statement": "Given criteria, a start and commands on its standard input, the generator makes exactly the described criteria, starts on the settings file in the tuning mode, carries out each command as the command handler would, and writes the document of the domains that result; its exit code is the number of failed commands, one more if two domains hold the same element, at most 255. Given to another start as settings file, with criteria of the same names and types, the document is accepted and gives the same domains, rules and recorded settings. A criterion that cannot be made, a missing structure or a prohibited tuning mode ends it with 1 and no document. Empty lines do not count. (Refuted: an input without a start is an error; the code counts the errors that end the program; an unknown kind of criterion is refused; inclusive criteria with 32 values.)", "quantifier": "every input text made of any number of criteria and commands with any arguments; every structure, settings file and hardware answer", "why_tests_cant": "the commands and the domains they make are unbounded, and the second half is about every document another process reads back; a test compares one output file", "anchors": ["tools/xmlGenerator/domainGeneratorConnector.cpp: parse, addCriteria, start, conflictingElements, exportDomains, normalizeExitCode, main", "remote-processor/CommandHandlerWrapper.cpp: process", "parameter/ParameterMgr.cpp: exportDomainsXml, load"]}
{"id": "C74", "title": "Starting from the files does what they say", "statement": "A start from a configuration file that follows its schema succeeds if and only if: the plugins it names load (or missing ones are accepted), the structure file is there and, with the roots of the files it includes written in the place of the includes, describes a system of the configured name whose subsystem types are known, the settings file (if any) is accepted (or its failure is accepted), the start itself succeeds, and the remote server starts if tuning is allowed and a remote interface is wanted. With good files the start ends with an instance or a refusal, never in undefined behaviour; the instance is well formed and allows tuning exactly as configured. A start that succeeds also succeeds, with the same instance, when less is treated as a failure.", "quantifier": "every configuration, structure, included and settings document; every set of plugins and of hardware answers; every failure policy; every set of criteria", "why_tests_cant": "the documents, the includes and the plugins are unbounded, and the claim says exactly when a start succeeds; a test starts a few configurations", "anchors": ["parameter/ParameterMgr.cpp: load, loadFrameworkConfiguration, loadSubsystems, loadStructure, loadSettings, loadSettingsFromConfigFile, handleRemoteProcessingInterface", "parameter/ParameterFrameworkConfiguration.cpp: fromXml", "parameter/FrameworkConfigurationLocation.cpp: fromXml", "parameter/PluginLocation.cpp: fromXml", "parameter/XmlFileIncluderElement.cpp: fromXml", "xmlserializer/XmlDocSource.cpp: populate"]}
{"id": "C75", "title": "Plugins are loaded in any order that works", "statement": "Whatever the order in which the plugins are listed, and even when some need symbols of others, every library that can be opened in some order is opened, each after what it needs; the ones reported missing are those that do not open even with all the others; none is missing if and only if there is an order in which all open. When no two libraries bring the same subsystem type, what each type makes does not depend on the order of the list; a type that no library brings is unknown, or virtual when missing subsystems are accepted.", "quantifier": "every list of plugin files and every dependency between them under which more open libraries do no harm", "why_tests_cant": "the number of plugins and the dependencies between them are unbounded; a test lists two or three", "anchors": ["parameter/SystemClass.cpp: loadSubsystems, loadSubsystemsFromSharedLibraries, loadPlugins", "parameter/SubsystemLibrary.h", "parameter/ElementLibrary.cpp: addElementBuilder", "parameter/DefaultElementLibrary.h: createElement"]}
{"id": "C76", "title": "A subsystem object touches its element and nothing else", "statement": "An object that accesses no more bytes than its element has does what its code says on the memory of the element, and the bytes before and after it are neither read nor changed; whatever its code, an object that ends never reads or changes what lies before its element. Sending with an object that only reads leaves the memory as it was. When reading back fails or the subsystem is not alive, every parameter of the element holds its default value, nothing else changes, and the failure is told. A start with objects that give all their bytes, or fail without writing, is the start with these answers.", "quantifier": "every code an object may have (any interleaving of reads and writes that depends on what was read), every element, every content of the memory around it, every system", "why_tests_cant": "the plugins are written by others: the code of an object and the memory around it are arbitrary; a test exercises the objects of one plugin", "anchors": ["parameter/SubsystemObject.cpp: sync, accessHW, sendToHW, receiveFromHW, blackboardRead, blackboardWrite, setDefaultValues", "parameter/ParameterBlackboard.cpp: readBuffer, writeBuffer", "parameter/SyncerSet.cpp: sync", "parameter/HardwareBackSynchronizer.cpp: sync"]}
{"id": "C77", "title": "What the TEST subsystem writes to its files is what it reads back", "statement": "Sending writes one line for each value, 0x and its hexadecimal digits, and changes no memory; reading a file puts the value of each word, hexadecimal or decimal, at its place and ignores what follows. What was sent is received, for any array and wherever it lies. If every parameter has a file of its own and all were sent, a start with these files gives every parameter that no applicable configuration sets the value it had, and the other files are untouched. The subsystem is alive exactly when the first word of its file is true; a missing file changes nothing.", "quantifier": "every memory, array length and value width up to four bytes, every text of a file, every system of such objects, every order of sending", "why_tests_cant": "values, array lengths, file texts and structures are unbounded; the functional tests compare a few files", "anchors": ["test/test-subsystem/TESTSubsystemObject.cpp: constructor, sendToHW, receiveFromHW, sendToFile, receiveFromFile", "test/test-subsystem/TESTSubsystemBinary.cpp: toString, fromString", "test/test-subsystem/TESTSubsystemString.cpp: toString, fromString", "test/test-subsystem/TESTSubsystem.cpp: isAlive"]}
{"id": "C78", "title": "An EDD file becomes the commands that create what it says", "statement": "A file whose lines say elements, one tabulation deeper than the element in which they are, is read as these elements; any other file is refused or read as elements each of which is where it may be. The commands then create each domain of the file once, with its full name and sequence awareness, add the parameters of its configurations, and create each configuration that is in it once, with its full name, its rule and its settings; a file in which two configurations of a domain do not set the same parameters is refused. The rule holds exactly when all rules that concern the configuration hold: its own, those of all in which it is, and those of the types of its name written before. Each configuration sets exactly the parameters that were added.", "quantifier": "every list of lines, every tree of elements, every depth of groups and operators, every set of criteria and every state of them", "why_tests_cant": "files nest domains, configurations, operators and components to any depth; the only tests are a few files compared with stored output", "anchors": ["tools/xmlGenerator/EddParser.py: Parser.parse, LineParser, ElementsFactory, propagate, translate, getRuleString, PFWSyntax, checkConfigurableElementUnicity", "tools/xmlGenerator/PFWScriptGenerator.py: PfwScriptTranslator", "tools/xmlGenerator/PfwBaseTranslator.py", "tools/xmlGenerator/domainGenerator.py: parseEdd, generateDomainCommands", "tools/xmlGenerator/README.md"]}
{"id": "C79", "title": "What an EDD file says is what the framework gets", "statement": "When the framework, in the tuning mode, carries out the commands made from an EDD file and all of them succeed, the domains of the file are added after those it had, in order, each with its full name, its sequence awareness, its parameters, its configurations and their rules and order as the file says, and no other domain changes; each value of the file is what is then read in the recorded settings of its configuration, as the same text set on the parameter would be read. If the domain generator, given the criteria and these commands, ends with code 0, then all this holds of the state whose document it writes, no element is in two domains, and the document used as a settings file gives these domains again.", "quantifier": "every EDD file, every structure, every starting state (from any settings file and any earlier commands), every set of criteria", "why_tests_cant": "it composes the EDD parser, the command line, the remote command handler, the edition of domains and the export, over unbounded files and states; the tests compare a few files with stored output", "anchors": ["tools/xmlGenerator/domainGenerator.py: parseEdd, generateDomainCommands, main", "tools/xmlGenerator/EddParser.py: Parser.parse, propagate, translate", "tools/xmlGenerator/domainGeneratorConnector.cpp: parse, start, exportDomains, main", "parameter/ParameterMgr.cpp: createDomain, addConfigurableElementToDomain, createConfiguration, setApplicationRule, setElementSequence, accessConfigurationValue", "parameter/ConfigurableDomain.cpp: createConfiguration, setElementSequence"]}
{"id": "C80", "title": "The settings file tool: from its files to the document", "statement": "The tool reads a criteria file of lines '<type> <name> : <values>' as said; a line without type, name and colon ends it with code 1 and no document; the first EDD file that cannot be read ends it with code 2, the first one with uneven configurations with code 1, without a document. If the tool ends with code 0, then its document is that of a framework that has started with these criteria, imported the initial settings and the domain files with success, and then has, after the domains it had, those of all the EDD files in the order of the files, with the rules, orders and values that they say, and where no element is in two domains.", "quantifier": "every criteria file, every list of domain files and EDD files, every structure and settings file", "why_tests_cant": "the whole chain (Python text processing, the pipe, the remote commands, the export) is never run by the tests on more than two fixed sets of files, and never on wrong ones", "anchors": ["tools/xmlGenerator/domainGenerator.py: parseCriteria, parseEdd, generateDomainCommands, main", "tools/xmlGenerator/domainGeneratorConnector.cpp: parse, start, exportDomains, main", "tools/xmlGenerator/EddParser.py: Parser.parse, propagate, translate"]}
{"id": "C81", "title": "The tool starts the framework from the target's configuration without the target's hardware", "statement": "From the configuration file of a target, the settings file tool makes another one for the host. It is the same document, except that the plugin locations and the settings are gone, tuning is allowed, the port is the one asked if one is asked, and the folder of the original file stands before the path of the structure. If the original file is a good configuration then so is the new one, with the same system; every subsystem of the structure is then a virtual one whatever its type; and the framework starts from it exactly when the structure found at the new path can be loaded, with no settings at all and tuning allowed.", "quantifier": "every document, port, folder, structure and set of criteria", "why_tests_cant": "the tests use one configuration file, and compare nothing of the result; that no plugin is ever needed can only be seen over all structures", "anchors": ["tools/xmlGenerator/hostConfig.py: configure", "tools/xmlGenerator/domainGenerator.py: main", "tools/xmlGenerator/domainGeneratorConnector.cpp: XmlGenerator, start", "parameter/ParameterMgr.cpp: loadSubsystems", "parameter/SubsystemLibrary.h: createElement"]}
{"id": "C82", "title": "The exit code of the command line client tells whether the command succeeded", "statement": "The command line client exits with code 0 or 1, whatever the other side sends. The code is 0 exactly if the other side sent a well-formed answer of success, and then the text of the answer, up to its first NUL, is all that is on the output and nothing is on the error output. Otherwise nothing is on the output and there is a message on the error output. With fewer than three arguments, or without a connection, nothing is asked to the other side. Against a server of the framework, the command is processed once, with its arguments in order and without the blanks at their ends; and a script of such command lines does what the commands mean, in order, with one exit code each that says whether it succeeded.", "quantifier": "every command line, every answer of the other side (well-formed or not), every state of the framework, every script", "why_tests_cant": "the tests run the client only by hand-written scripts against one server; wrong answers and answers cut short are never sent to it", "anchors": ["remote-process/main.cpp: main, sendAndDisplayCommand", "remote-processor/RequestMessage.cpp: addArgument, fillDataToSend", "remote-processor/AnswerMessage.cpp: collectReceivedData, success", "remote-processor/RemoteProcessorServer.cpp: handleNewConnection"]}
{"id": "C83", "title": "Calls from several threads return what they return one after the other", "statement": "When the background server and threads of the client apply configurations, read and set parameters through handles and through commands, in any interleaving, and a thread that switches the tuning mode is the only one that heeds it, every call returns what it returns when the calls are made one after the other in the order of their ends, the framework is left as these leave it, and the calls of a thread end in its order. Whatever the threads call, at most one is at work in the parameter memory, none waits for ever, and each call takes a bounded number of steps.", "quantifier": "every system, reachable state, number of threads, programs of the threads, and interleaving", "why_tests_cant": "tests see a few of the interleavings", "anchors": ["parameter/ElementHandle.cpp: setAs, getAs", "parameter/ParameterMgr.cpp: applyConfigurations, accessParameterValue, accessValue, setTuningMode", "parameter/ParameterMgr.h: _blackboardMutex"]}
{"id": "C84", "title": "Criteria may change while configurations are applied", "statement": "When other threads change the criteria while configurations are applied, the application still ends, and each domain that is judged while the criteria stay in one state gets its first configuration whose rule holds in this state. If the criteria change once, at most one domain sees both states; those before it are judged in the old state and those after it in the new one. If a single criterion changes, a configuration newly applied whose rule tests it at most once was applicable at some moment of the application. If no parameter belongs to two domains, then whatever happened, the first application without changes leaves each domain that has an applicable configuration with the first one, and its parameters with the settings of this configuration. A configuration is only applied if its rule held at some moment, a rule that holds all along is not missed, the configurations of the domains fit one state of the criteria, and a change no rule saw is not counted as applied.", "quantifier": "every system, reachable state, course of the criteria during the applications (any number of changes between two looks), and number of such applications", "why_tests_cant": "tests change criteria between applications only; the changes that matter fall between two looks of one rule or between two domains", "anchors": ["parameter/SelectionCriterion.cpp: setCriterionState, is, includes", "parameter/CompoundRule.cpp: matches", "parameter/ConfigurableDomain.cpp: apply, findApplicableDomainConfiguration", "parameter/ConfigurableDomains.cpp: apply", "parameter/ParameterMgr.cpp: applyConfigurations, doApplyConfigurations, setTuningMode"]}
{"id": "C85", "title": "What a scenario of the client simulator makes of the platform", "statement": "A scenario whose actions name existing criteria, allowed values and known scripts is played to its end: the configurations are applied once for each object of criteria, at a moment when the criteria it names (in the scenario, or in the type of action it uses, which wins) have exactly the values asked for and all others those they had before, and the scripts are run in their order. An object that asks a criterion for a value that it does not have, or a script that does not exist, ends the run there with nothing of that object sent; a type of action that is not defined is found before anything is sent. An object without criteria changes none, and a criterion that does not exist is reported. In the interactive mode, the menu of a criterion offers every other value and, for an inclusive one, to unset each value it has; every entry does what it says and keeps the other values; a number that is not in the menu gives a message. (The sentence on objects without criteria and on criteria that do not exist, and parts of the last one, are false.)", "quantifier": "every set of criteria, scenario of any length, defined types of action, and earlier state of the platform; every value of a criterion and number typed", "why_tests_cant": "the code has no test; the values left by earlier actions, and the spellings of the values, are not enumerable", "anchors": ["tools/clientSimulator/clientsimulator/scenario/Scenario.py: __parseScenarioActions, play", "tools/clientSimulator/clientsimulator/testGenerator/TestVectorFactory.py: generateTestVector", "tools/clientSimulator/clientsimulator/testGenerator/TestLauncher.py: executeTestVector, executeScript", "tools/clientSimulator/clientsimulator/criterion/InclusiveCriterion.py: currentValue, removeValue", "tools/clientSimulator/clientsimulator/criterion/ExclusiveCriterion.py: currentValue", "tools/clientSimulator/clientsimulator/userInteraction/UserInteractor.py: getMenu, __editCriterion"]}
