# licensecc in Rocq (Coq 8.16.1): design

## Approach

The library (`/repo/src/library`, Linux/OpenSSL build, gcc, glibc, x86-64) is
modelled function by function as total, computable Gallina functions over
`list ascii` (byte strings), `nat`, `N`, `Z`, `option` and records. Only the Coq
standard library is imported; there are no axioms.

* `res A = Ok a | Throw e | Undef u | OutOfFuel`: every function that can throw
  a C++ exception or execute undefined behaviour (out-of-bounds access, null
  dereference, reading an uninitialised object or an unterminated array as a C
  string, integer overflow in a conversion) returns `res`. Undefined behaviour
  is a distinct outcome, never assumed away: theorems show it unreachable, or
  say exactly when it is reached, or exhibit it (`..._refuted`). `OutOfFuel` is
  the artefact of the two loops written with fuel; it is proved unreachable
  (C39_terminates, C58).
* The surroundings are a record `world` of oracles: project constants, build
  flags, module path, `getenv`, file existence and file content as functions of
  the *instant* (a counter threaded through the call and advanced at every
  access, so files and clock may change between any two accesses), clock,
  `mktime`, OpenSSL's base64 BIO and RSA verification, and the hardware.
  Nothing is assumed about them unless a theorem's hypotheses say so.
* C arrays are `list ascii` of their exact size; `std::map<string,_>` is a
  strictly sorted association list; iteration orders of `unordered_map` are
  arbitrary (an oracle, or universally quantified permutations).
* Struct fields the code may leave uninitialised are `option`s or have an
  `_init` flag.

Layout (`rocq/theories`):

| files | content |
|-------|---------|
| `Base`, `CTypes`, `StringUtils`, `Dates`, `Base64`, `HwId`, `Registry`, `Ini`, `Network`, `Disks`, `CpuInfo`, `ExecEnv`, `Strategies`, `Locate`, `Licensecc`, `Logger`, and the later ones listed under "modelled" | the model; no proofs; each definition cites the lines of /repo it models |
| `Spec_*.v` | independent specifications, in the vocabulary of the English properties |
| `P_*.v` | proofs |
| `Prop_*.v` | the property theorems (`Cnn_...`), each followed by `Print Assumptions`, with `Example`s showing a non-trivial case that meets the hypotheses |
| `Ex_Acquire.v` | a concrete world used in the examples |

`tools/mkmanifest.py` regenerates `MANIFEST.json` from the theorem names,
`tools/mkdesign.py` the table at the end of this file.

A property whose natural statement is false of the code is listed with the
*true* statement; the false one is stated and refuted by a theorem whose name
ends in `_refuted` (a proof of its negation, by a witness that runs through the
public function). These refutations are findings about licensecc.

## Trusted base

* Coq's kernel (including its `vm_compute` machine, used in finite sweeps over
  bytes and in examples).
* `Print Assumptions` prints "Closed under the global context" for every
  property theorem. The seven `Coq.ssr.ssrunder.*` entries that a global scan of
  the loaded libraries lists are parameters of a module type in the standard
  library (loaded through `Lia`/`ssreflect`); no theorem depends on them.
* That the model says what the C++ says. There is no extraction or translation
  tool: the comments citing file and line are the link. The conventions are
  listed below, so that a reader can check each of them.

### Modelling conventions (simplifications)

* **Signature scheme.** OpenSSL is an arbitrary function: `w_bio` (what the
  base64 BIO decodes, or failure), `w_key_ok`, `w_verify`. No cryptographic
  assumption is made; "good signature" means "the oracle accepts".
* **ctype.** `isspace`, `isdigit`, `toupper`, ... are those of the C locale of
  glibc, also for negative `char` arguments (glibc tables cover -128..255).
* **Integers.** `int`, `long`, `size_t` wrap or are undefined as in C where the
  code can reach the limit with realistic memory (base64 lengths, `atoi`,
  `strtol`, inode numbers, `days_left`). Loop counters bounded by the size of an
  object in memory are unbounded naturals (less than 2^31 devices, events,
  lines). `time_t` is an unbounded integer.
* **Doubles** are Coq's `SpecFloat` (binary64, ties to even); C10_double_arithmetic
  proves that the rounded quotient is the exact one. `difftime` rounds once.
* **cpuid** is an arbitrary function from leaf to four 32 bit registers, wrapped
  by `__get_cpuid` as in gcc's `<cpuid.h>`.
* **Files.** A file is its size and the bytes a read returns; `stat`, `ifstream`
  and `fopen` are answered by oracles that may disagree with each other.
* **SimpleIni.** The parser is modelled on the bytes of the text
  (single-byte `char`, `m_bStoreIsUtf8 = false`, no multi-line values, no
  multi-key: the options the library uses). Comments are not stored, as no
  function of the library reads them back. Allocation never fails. `Ini.v` works
  on lists of characters; `IniBuf.v` is the same loader in place, on a buffer with
  checked accesses, and C77 proves that it gives the same entries and lookups.
* **std::regex** (format detection) is modelled in `StringUtils.v` by the languages
  of the two patterns. `Regex.v` starts from the text of the patterns: a reader for
  the syntax they use, ECMAScript's meaning (`Spec_Regex.v`) and a depth-first
  search in libstdc++'s order that counts the calls active at once; C116 proves that
  it classifies every text alike, and bounds the calls active at once from below and above.
  That the stack ends somewhere is not modelled.
* **Logging** is treated as having no effect in the callers; the logger itself is
  modelled separately (C55). What its calls write, format
  strings expanded, is C118 (`LogText.v`): all 38 places that call it are listed there. Two calls
  in `os_linux.cpp` print an `ino_t` with `%d`, undefined in C and harmless on x86-64: the model
  of their callers treats them like the others.
* **Static state.** The event registry is a local of each call, as in the code;
  the one static variable that matters (`exec_env` of `identify_pc`) is modelled
  by `identify_calls` (C61), and with threads by `IdThreads.v` (C100: C++ locks
  the construction of a function-local static). There is no other locking.
* **Threads** (C86). A call of `acquire_license` is a program whose steps are its
  accesses to files, clock and hardware; threads interleave at these. The claims
  rest on the fact, read off the code, that a call writes to no object shared
  with another call, apart from two static objects (`initialized` in
  `openssl/signature_verifier.cpp`, the log file) which `Statics.v` models on
  their own, at single accesses, with their races (C101). An examination of the
  hardware is one step here; the object in which `getmntent` delivers its entries, and
  which all threads share, is modelled at single accesses in `MntEnt.v` (C114). Not
  covered: `setenv` by the caller meanwhile.
* **Feature names** of exactly 16 bytes without a NUL are read one byte beyond
  the array by `mstrnlen_s`; that is counted as undefined behaviour.
* **Feature names that contain line ends** do not correspond to any INI section
  (C77 shows where a section whose name contains one can come from).

### Modelled

* `include/licensecc/*.h`: all types used by the calls below.
* `src/library/licensecc.cpp`: `acquire_license`, `identify_pc`, `mergeLicenses`.
* `LicenseReader.cpp`, `limits/license_verifier.cpp`, `locate/*.cpp`: complete.
* `base/`: `EventRegistry.cpp`, `base64.cpp`, `string_utils.cpp`,
  `file_utils.cpp`, `logger.cpp`: complete.
* `ini/SimpleIni.h`: `LoadData`, `FindFileComment`/`FindEntry`, `AddEntry`,
  `GetValue`, `GetSection`, `GetAllSections`, `Save`, with the options used
  (`Ini.v`); `LoadData`, `FindEntry`, `LoadMultiLineText` again at the level of
  the buffer they parse in place (`IniBuf.v`).
* `ini/SimpleIni.h`, the editing interface (`IniEdit.v`, C102-C104): `SetValue`,
  `AddEntry`, `CopyString`, `DeleteString`, `Delete`, `Reset`, `GetValue`,
  `GetAllValues`, `GetAllKeys`, `GetAllSections`, `GetSectionSize`, `Save`,
  `OutputMultiLineText` and the typed `Get*`/`Set*Value`, with multi-keys, multi-line
  values, comments and the list of allocated strings. A string is given by the
  caller, lies in the loaded buffer or is an allocated copy; a freed copy cannot be
  read. Of a load only the entries it finds are taken; allocation never fails;
  std::multimap is a list in its order. `SetDoubleValue` takes a double as sign,
  mantissa and exponent. `GetDoubleValue` with the `strtod` of glibc in the C locale
  (`StrToD.v`, C110): decimal, hexadecimal, inf and nan, round to nearest even.
  SaveFile and LoadFile with everything that can happen to the file (`IniFile.v`, C112): fopen,
  the parts in which stdio hands the text to the system, short writes, the end of the process.
  The wide character variants are not modelled. Byte order marks: `IniBom.v` (C113).
* `ini/SimpleIni.h`, values of several lines (`IniMulti.v`, C106, C107): `LoadData`,
  `FindEntry`, `IsMultiLineTag` and `LoadMultiLineText` with `m_bAllowMultiLine`, on
  the buffer, with the line ends and NULs they write into it.
  C108 joins this loader with the object model: the entries found, with the text of
  their comments in the buffer, are given to an object of `IniEdit.v`, and a
  bisimulation shows that no later call tells it from the saved one.
* `hw_identifier/*.cpp`: complete.
* `os/linux/*.cpp`: complete (`parse_disk_id`, which no build calls, in `DiskId.v`, C120);
  `os/execution_environment_common.cpp`, `os/openssl/signature_verifier.cpp`
  (in `Licensecc.v` with memory for every object, in `OpenSsl.v` call by call
  with every failure and with what is acquired and released).
* `LogText.v` (C118): the macros of `logger.h`, every call of them, and `vfprintf` for `%s`, `%d`,
  `%x` and `%%` with the flags `-` and `0` and widths (anything else is Undef, as the library uses
  nothing else correctly). `wchar_t` and precision are not modelled; `__FILE__` is taken relative to
  `src/library`.
* `Shortage.v` (C117): `acquire_license` with that verifier, call by call, instead of its
  summary; the answers of the calls are any function of the text and signature verified.
* `WinShortage.v` (C119): the same on Windows, with the provider of `WinSignature.v`.
* `HwResources.v`: the directories, streams and blocks that the Linux functions above
  and `os/windows/network.cpp` acquire through plain pointers (C89); erasing these
  histories gives the functions above (`C89_same`).
* `SysFiles.v`: the file system behind the readings of the Linux functions: which paths
  they come from, and the lines of the text files (C96). The system does not change while
  it is read; of `getmntent` only the entries it delivers are modelled.
* `IdThreads.v`: threads that call `identify_pc`, with the lock of its static object;
  examining the hardware, examining the environment, and returning are one step each.
* `Statics.v`: the accesses to the two other static objects, one by one.
* `ini/ConvertUTF.cpp`: complete, and `SI_ConvertW` of SimpleIni.h with a UTF-8 store
  (`ConvertUtf.v`): every access to the arrays checked; comparisons with pointers
  beyond the end of an array compare indices.
* `os/windows/`: `network.cpp`, `os_win.cpp`, `cpu_info.cpp`,
  `execution_environment.cpp`, `dmi_info.cpp`, `smbios.hpp`,
  `signature_verifier.cpp` (`WinSignature.v`; the provider behind oracles, the
  bytes of unwritten variables arbitrary). The platform
  independent identification code is written a second time over abstract
  readings (`Shared.v`); `C69_same_as_linux` proves both versions equal on
  Linux readings. std::sort is any function with its specification.
* `acquire_license` on Windows (`AcquireGen.v`): the platform independent code of
  the call (`licensecc.cpp`, `LicenseReader.cpp`, `license_verifier.cpp`,
  `locate/`) over an interface of two functions and one constant (verify a
  signature, validate a hardware code, MAX_PATH); with the Linux functions it is
  the Linux model (`C78_same_as_linux`), with those of `os/windows/` (MAX_PATH
  260) it is the call on Windows. The file system, environment and clock are
  oracles as on Linux; the module name is that of `GetModuleFileName`, cut to
  MAX_PATH - 1 characters.
* `acquire_license` as a program of accesses (`AcquireIo.v`), proved to be the same
  as `Licensecc.acquire_license` when it runs alone (`P_Io.run_acquire`).
  `FileSteps.v` (C109) makes its readings call by call (open, seek, every read of the
  stream's buffer) on a file system of paths and inodes that changes in between; the
  refinement `C109_atomic` carries every other claim over. Regular files only.
* `src/inspector/inspector.cpp`: `verifyLicense` (`Inspector.v`) and `main`
  (`InspectorMain.v`; its texts, character by character, in `InspectorOut.v`);
  uninitialised variables hold arbitrary bytes.

### Not modelled

* OpenSSL, libc and the kernel behind the oracles; SimpleIni's
  parsing of wide characters (the conversion to and from them is modelled).
* The license generator (`extern/`, absent from the pinned checkout).
* `print_error` (an empty function).

## Per-property table

<!-- table -->
| id | property | modelled (anchors) | theorems | file |
|----|----|----|----|----|
| C01 | LICENSE_OK is sound | licensecc.cpp:acquire_license; limits/license_verifier.cpp:verify_limits; LicenseReader.cpp:readLicenses | accept_sound | Prop_Acquire.v |
| C02 | A valid license is always accepted | licensecc.cpp:acquire_license; LicenseReader.cpp:readLicenses | valid_accepted, static_exact, accepts_total | Prop_Acquire.v, Prop_Faults.v |
| C03 | A failing acquire_license reports a failure code | licensecc.cpp:acquire_license; base/EventRegistry.cpp:getLastFailure | failure_codes, failure_selected | Prop_Acquire.v |
| C04 | A license with an invalid signature is never accepted | limits/license_verifier.cpp:verify_signature; licensecc.cpp:acquire_license | bad_signature_refused | Prop_Acquire.v |
| C05 | Magic number is enforced | licensecc.cpp:acquire_license; limits/license_verifier.cpp:verify_limits; src/templates/licensecc_properties.h.in:LCC_VERIFY_MAGIC | magic_enforced | Prop_Acquire.v |
| C06 | The validity window is exact | limits/license_verifier.cpp:verify_limits; base/string_utils.cpp:seconds_from_epoch | window_exact | Prop_Acquire.v |
| C07 | No C++ exception escapes the C API | licensecc.cpp:acquire_license; limits/license_verifier.cpp:toLicenseInfo; base/file_utils.cpp:get_file_contents; locate/ExternalDefinition.cpp:license_locations | exceptions_explained, no_exception, bad_date_blocks, no_exception_refuted | Prop_Faults.v |
| C08 | acquire_license never dereferences a null failure | licensecc.cpp:acquire_license; base/EventRegistry.cpp:getLastFailure | null_explained, silent_cases, silent_fails, no_null_refuted | Prop_Faults.v |
| C09 | With several valid licenses the best one is reported | licensecc.cpp:mergeLicenses | best_reported, best_unique | Prop_Acquire.v |
| C10 | days_left and has_expiry | limits/license_verifier.cpp:toLicenseInfo | days_left, rounding_unique, double_arithmetic | Prop_Acquire.v |
| C11 | linked_to_pc | limits/license_verifier.cpp:toLicenseInfo | linked_to_pc | Prop_Acquire.v |
| C12 | proprietary_data | limits/license_verifier.cpp:toLicenseInfo; include/licensecc/datatypes.h:LicenseInfo | proprietary_data, default_refuted, unwritten | Prop_Acquire.v, Prop_Status.v |
| C13 | Exported audit events | base/EventRegistry.cpp:exportLastEvents; licensecc.cpp:acquire_license | status_of_call, export_last | Prop_Acquire.v, Prop_Registry.v |
| C14 | Single-license diagnosis | licensecc.cpp:acquire_license; LicenseReader.cpp:readLicenses | single_source, single_static | Prop_Acquire.v |
| C15 | The failure code is explained by the exported events | base/EventRegistry.cpp:getLastFailure; base/EventRegistry.cpp:exportLastEvents | code_recorded, exported_refuted, single_source | Prop_Status.v |
| C16 | More candidate locations never hurt | licensecc.cpp:acquire_license | more_places_never_hurt | Prop_Acquire.v |
| C17 | The signature binds the limits of a license | LicenseReader.cpp:printForSign | resplit, limit_removed, signature_binds_refuted | Prop_Signature.v |
| C18 | What the signature does bind | LicenseReader.cpp:printForSign | values_bound, feature_bound, altered_value, altered_feature, added_limit | Prop_Signature.v |
| C19 | Features are isolated | LicenseReader.cpp:readLicenses; ini/SimpleIni.h:AddEntry | features_isolated, hints_isolated, foreign_section, features_isolated_windows, hints_isolated_windows | Prop_Isolation.v, Prop_WinLayout.v |
| C20 | Event registry invariant | base/EventRegistry.cpp | index_valid, log_faithful, no_undefined, long_reference_refuted, progress_monotone, index_meaning | Prop_Registry.v |
| C21 | Failure selection | base/EventRegistry.cpp:getLastFailure; base/EventRegistry.cpp:turnWarningsIntoErrors | null_iff_no_error, selection, selection_unique | Prop_Registry.v |
| C22 | Severity conversions | base/EventRegistry.cpp | lower, raise, good_iff | Prop_Registry.v |
| C23 | base64 round trip | base/base64.cpp | base64_round_trip, base64_is_rfc4648, base64_lines | Prop_Base64.v |
| C24 | unbase64/base64 memory safety | base/base64.cpp:unbase64; base/base64.cpp:base64 | base64_out_of_bounds, unbase64_decoded, unbase64_outcomes, memory_safety_refuted | Prop_Base64.v |
| C25 | Hardware id print/parse round trip | hw_identifier/hw_identifier.cpp | print_parse, print_injective | Prop_HwId.v |
| C26 | Hardware id text format | hw_identifier/hw_identifier.cpp:print; licensecc.cpp:identify_pc | print_format, print_length | Prop_HwId.v |
| C27 | Hardware id fields are independent | hw_identifier/hw_identifier.cpp | setters, set_strategy, set_strategy_throws, set_data, set_environment_flag, data_match, strategy_bits | Prop_HwId.v |
| C28 | Hardware id equality | hw_identifier/hw_identifier.cpp:operator== | equality, equivalence | Prop_HwId.v |
| C29 | A generated id validates on the same machine | hw_identifier/hw_identifier_facade.cpp; hw_identifier/identification_strategy.cpp | generated_id_validates | Prop_Hw.v |
| C30 | Validation does not depend on enumeration order and survives added devices | hw_identifier/ethernet.cpp; hw_identifier/disk_strategy.cpp; os/linux/network.cpp | adapter_order, interleaving, added_adapters, disk_order | Prop_Hw.v |
| C31 | Exactly the machine's own identifiers are accepted | hw_identifier/hw_identifier_facade.cpp:validate_pc_signature | accepted_iff_own, never_throws, undefined_iff, undefined_case, network_total | Prop_Hw.v |
| C32 | Unsupported strategies are rejected | hw_identifier/identification_strategy.cpp:get_strategy; licensecc.cpp:identify_pc | unsupported_rejected, undecodable_rejected, identify_unsupported | Prop_Hw.v |
| C33 | identify_pc buffer protocol | licensecc.cpp:identify_pc; base/string_utils.cpp:mstrlcpy | protocol, never_throws, undefined_only_from_hardware | Prop_Hw.v |
| C34 | Different machines have different identifiers | hw_identifier/hw_identifier.cpp:set_data; hw_identifier/disk_strategy.cpp; os/linux/os_linux.cpp:parseUUID | blkid_refuted, network_distinct, disks_refuted | Prop_Disks.v, Prop_Hw.v |
| C35 | All-zero addresses are never used as identity | hw_identifier/ethernet.cpp:generate_ethernet_pc_id | generated_own, one_per_adapter, zero_not_accepted | Prop_Hw.v |
| C36 | Adapter enumeration | os/linux/network.cpp:getAdapterInfos | adapters, none, interleaving | Prop_Hw.v |
| C37 | Disk preference order | hw_identifier/disk_strategy.cpp:generate_disk_pc_id; os/linux/os_linux.cpp:set_preferred_disks | order, first_is_generated, by_uuid, fstab_uuid, fstab_label, preferred_only_if, fstab_device_refuted, fstab_label_uninitialised | Prop_Disks.v |
| C38 | parseUUID | os/linux/os_linux.cpp:parseUUID | parse_uuid, short_uuid, scratch_refuted, no_separator_overruns | Prop_Disks.v |
| C39 | parse_blkid | os/linux/os_linux.cpp:parse_blkid; os/linux/os_linux.cpp:getAttribute | count, terminates, attributes, first_name, names_refuted, labels_refuted | Prop_Disks.v |
| C40 | trim_copy | base/string_utils.cpp:trim_copy | trim_copy, trim_copy_unique, trim_copy_idempotent | Prop_Strings.v |
| C41 | split_string | base/string_utils.cpp:split_string | split_string | Prop_Strings.v |
| C42 | mstrlcpy | base/string_utils.cpp:mstrlcpy | mstrlcpy, mstrlcpy_frame, mstrlcpy_zero, mstrlcpy_overread, mstrlcpy_overflow | Prop_Strings.v |
| C43 | mstrnlen_s reads only maxsize bytes | base/string_utils.cpp:mstrnlen_s | mstrnlen_s, mstrnlen_s_over_read, reads_only_maxsize_refuted | Prop_Strings.v |
| C44 | Date parsing | base/string_utils.cpp:seconds_from_epoch | plain, separated, accepted_iff, rejected_iff, one_date, length, outcome, calendar, monotone, only_dates_refuted | Prop_Dates.v |
| C45 | License format detection | base/string_utils.cpp:identify_format | identify_format | Prop_Strings.v |
| C46 | remove_extension | base/file_utils.cpp:remove_extension; locate/ApplicationFolder.cpp | remove_extension, remove_extension_else | Prop_Strings.v |
| C47 | INI parsing terminates and is line oriented | ini/SimpleIni.h:LoadData; ini/SimpleIni.h:FindEntry | line_oriented, stops_at_nul, clean | Prop_Ini.v |
| C48 | INI lookup | ini/SimpleIni.h:SI_GenericNoCase; ini/SimpleIni.h:AddEntry; ini/SimpleIni.h:GetValue | strict_weak_order, lookup, last_wins | Prop_Ini.v |
| C49 | INI save/load round trip | ini/SimpleIni.h:Save; ini/SimpleIni.h:LoadData | save_load, reload, nameless_header_refuted | Prop_Ini.v |
| C50 | License size limit | base/file_utils.cpp:get_file_contents; locate/LocatorStrategy.cpp | size_limit, readable_part, size_limit_windows | Prop_Isolation.v, Prop_WinLayout.v |
| C51 | Search order | locate/LocatorFactory.cpp; locate/ExternalDefinition.cpp; base/file_utils.cpp:filter_existing_files | search_order, nothing_else, nothing_else_windows | Prop_Isolation.v, Prop_WinLayout.v |
| C52 | LICENSE_ENCODED works | locate/ExternalDefinition.cpp:retrieve_license_content | encoded_with_nul, encoded_refuted, encoded_with_nul_windows, encoded_refuted_windows | Prop_Isolation.v, Prop_WinLayout.v |
| C53 | LICENSE_DATA works | locate/EnvironmentVarData.cpp | data_refuted, data_refuted_windows | Prop_Isolation.v, Prop_WinLayout.v |
| C54 | Execution environment consistency | os/execution_environment_common.cpp; os/linux/execution_environment.cpp | summary, hash_order, hash_order_detail, detail_order_refuted, environment, detail_complete, determined, defined_iff, defined_refuted | Prop_Exec.v |
| C55 | Log path stays in its buffer | base/logger.cpp:getLogFname | log_path_safe, log_path_unsafe, log_path_refuted, log_histories | Prop_Logger.v |
| C56 | Signature buffer stays in bounds | os/openssl/signature_verifier.cpp:verify_signature | buffer_in_bounds, short_signatures, any_signature_refuted | Prop_Faults.v |
| C57 | The default identification strategy | hw_identifier/default_strategy.cpp: DefaultStrategy::generate_pc_id; hw_identifier/hw_identifier_facade.cpp: generate_user_pc_signature; src/templates/licensecc_properties.h.in | default_strategy, docker_cloud_fails, always_available_refuted | Prop_Exec.v |
| C58 | Every call returns, or there is a known reason | licensecc.cpp:acquire_license; LicenseReader.cpp; limits/license_verifier.cpp; locate | returns_or_hazard, returns_when_calm | Prop_Faults.v |
| C59 | The disk listing, completely | os/linux/os_linux.cpp:getDiskInfos; os/linux/os_linux.cpp:getDiskInfos_dev; os/linux/os_linux.cpp:getDiskInfos_blkid; os/linux/os_linux.cpp:set_preferred_disks; os/linux/os_linux.cpp:read_disk_labels | listing, by_uuid_defined | Prop_Disks.v |
| C60 | What the processor says | os/linux/cpu_info.cpp: get_cpu_vendor, get_cpu_brand, is_hypervisor_set, model; os/execution_environment_common.cpp | vendor, brand, brand_short, hypervisor, model, silent, brand_recognised_refuted | Prop_Exec.v |
| C61 | The environment is examined once per process | licensecc.cpp: identify_pc (static exec_env) | first_environment, current_identifier, current_environment_refuted | Prop_Exec.v |
| C62 | The IDENTIFICATION_STRATEGY variable chooses the identification method exactly by the number it begins with | hw_identifier/hw_identifier_facade.cpp: HwIdentifierFacade::generate_user_pc_signature; hw_identifier/hw_identifier.cpp: set_use_environment_var; hw_identifier/identification_strategy.cpp: get_strategy | other_methods, empty, one_number, ignored, three_fails, choice, garbage, unrecognised_ignored_refuted | Prop_Choice.v |
| C63 | SMBIOS table walk (Windows) | os/windows/smbios.hpp: parser::feed, parser::skip, parser::extract_strings | structures, any_table, memory_safety_refuted | Prop_Smbios.v |
| C64 | DMI information on Windows | os/windows/dmi_info.cpp: readSMBIOS, DmiInfo::DmiInfo; os/dmi_info.hpp | information, unavailable, well_formed_defined_refuted, old_processor_refuted | Prop_Smbios.v |
| C65 | Life of an SMBIOS parser object | os/windows/smbios.hpp: parser::feed, parser::clear, parser::~parser | double_free_iff | Prop_Smbios.v |
| C66 | IP address texts on Windows | os/windows/network.cpp: translate | dotted, any_text, unterminated | Prop_WinNet.v |
| C67 | Network adapters on Windows | os/windows/network.cpp: getAdapterInfos, scoreAdapterInfo, comparator | adapters, comparison, enumeration_order, failures, error_reported_refuted | Prop_WinNet.v |
| C68 | Disks on Windows | os/windows/os_win.cpp: getDiskInfos | disks | Prop_Windows.v |
| C69 | Acceptance of a hardware identifier on Windows | hw_identifier/hw_identifier_facade.cpp; hw_identifier/disk_strategy.cpp; hw_identifier/ethernet.cpp; os/windows/os_win.cpp; os/windows/network.cpp | accepted_iff_own, undefined_iff, disk_codes, same_as_linux, file_system_accepted, code_of_one_machine_refuted | Prop_Windows.v |
| C70 | Generated identifiers on Windows | licensecc.cpp: identify_pc; hw_identifier/default_strategy.cpp; os/windows/network.cpp; os/windows/os_win.cpp | generated_is_accepted, disk_origin, ethernet_origin, ip_origin, default_strategy | Prop_Windows.v |
| C71 | Execution environment on Windows | os/execution_environment_common.cpp; os/windows/execution_environment.cpp; os/windows/cpu_info.cpp | environment, processor, usual_spelling_refuted, wine_container, wine_kind | Prop_Windows.v |
| C72 | The public key on Windows | os/windows/signature_verifier.cpp: read_length, read_sequence, read_integer, readPublicKey | key_read, short_exponent_refuted, large_key_refuted, long_length, long_length_negative, length_overflow, stays_inside, nonempty | Prop_WinSig.v |
| C73 | Signature verification on Windows | os/windows/signature_verifier.cpp: verify_signature, verifyHash, openHashProvider, hashData | accepts, refuses, throws, undefined, released, leak_refuted, nonempty | Prop_WinSig.v |
| C74 | Signature verification with OpenSSL: failures and resources | os/openssl/signature_verifier.cpp: verify_signature, free_resources | released, all_released, leak_refuted, fails_closed, same, nonempty | Prop_OpenSsl.v |
| C75 | The inspector's report on a license file | src/inspector/inspector.cpp: verifyLicense, stringByEventType; ini/SimpleIni.h: LoadFile, GetAllSections | described, default_project, section, texts, asked_in_full, sections_refuted, sections_listed, path_overflow | Prop_Inspector.v |
| C76 | What the inspector prints | src/inspector/inspector.cpp: main, descByVirt, descByVirtDetail, descByCloudProvider | identifiers, environment, adapters, adapters_shown, address_order_refuted, files, runs | Prop_InspectorMain.v |
| C77 | Loading a license text is memory safe and its strings stay valid | ini/SimpleIni.h: LoadData, FindFileComment, FindEntry, LoadMultiLineText, SkipNewLine, AddEntry | inside, stable, comments, lookups, values | Prop_IniBuf.v |
| C78 | acquire_license on Windows accepts exactly the valid licenses | licensecc.cpp: acquire_license; os/windows/signature_verifier.cpp: verify_signature; hw_identifier/hw_identifier_facade.cpp: validate_pc_signature; base/EventRegistry.cpp: addEvent, exportLastEvents; base/string_utils.h: mstrlcpy; os/windows/os_win.cpp | same_as_linux, outcome, accept_sound, valid_accepted, static_exact, failure_codes, module_path, nonempty, returns_refuted | Prop_WinAcquire.v |
| C79 | On Windows acquire_license returns unless there is one of seventeen listed reasons | licensecc.cpp: acquire_license; os/windows/signature_verifier.cpp: verify_signature; base/base64.cpp: unbase64; limits/license_verifier.cpp; LicenseReader.cpp; locate/ | returns_or_hazard, returns_when_calm, accepts_total, exceptions_explained, null_explained, bad_signature_blocks, cases_refuted | Prop_WinFaults.v |
| C80 | The layout of a license does not matter | ini/SimpleIni.h: FindEntry, LoadData; LicenseReader.cpp: readLicenses; licensecc.cpp: acquire_license | entries, text_layout, file_layout, file_layout_windows, text_layout_windows | Prop_Layout.v, Prop_WinLayout.v |
| C81 | A license that is issued properly is accepted, and refused for the right reason | licensecc.cpp: acquire_license; LicenseReader.cpp: readLicenses, printForSign; limits/license_verifier.cpp: verify_signature, verify_limits | issued_verdict, unlicensed | Prop_Issue.v |
| C82 | Calls are repeatable | licensecc.cpp: acquire_license; base/EventRegistry.cpp | repeatable, repeatable_windows, code_without_out | Prop_Repeat.v |
| C83 | Feature names are case-insensitive | licensecc.cpp: acquire_license; LicenseReader.cpp: readLicenses, printForSign; base/string_utils.cpp: toupper_copy | case_insensitive, case_insensitive_windows | Prop_Repeat.v |
| C84 | The clock, the hardware and the key matter only for licenses that refer to them | licensecc.cpp: acquire_license; limits/license_verifier.cpp: verify_limits, toLicenseInfo; hw_identifier/hw_identifier_facade.cpp: validate_pc_signature | clock, machine, key, clock_windows, machine_windows, key_windows | Prop_Repeat.v, Prop_WinRefer.v |
| C85 | What a call touches | licensecc.cpp: acquire_license; LicenseReader.cpp: readLicenses; base/file_utils.cpp: filter_existing_files, get_file_contents; limits/license_verifier.cpp: verify_signature, verify_limits, toLicenseInfo | accesses, no_others, files_touched, hardware_private, bounded, duration | Prop_Accesses.v |
| C86 | Calls from several threads do not disturb each other | licensecc.cpp: acquire_license; base/EventRegistry.cpp; LicenseReader.cpp: readLicenses; limits/license_verifier.cpp | as_if_alone, order, sound, independent, wait_free, no_new_faults | Prop_Threads.v |
| C87 | From identify_pc to an accepted license | licensecc.cpp: identify_pc, acquire_license; hw_identifier/hw_identifier_facade.cpp; limits/license_verifier.cpp: verify_limits; hw_identifier/hw_identifier.cpp | accepted_at_home, expired_at_home, refused_elsewhere | Prop_Enrol.v |
| C88 | Only the passage of time | licensecc.cpp: acquire_license; limits/license_verifier.cpp: verify_limits, toLicenseInfo; base/base64.cpp; base/string_utils.cpp: seconds_from_epoch | refused_for_good, days_never_grow, days_reliable, days_exhausted, refused_for_good_windows, days_never_grow_windows, days_reliable_windows, days_exhausted_windows | Prop_Passing.v, Prop_WinPassing.v |
| C89 | The enumeration of the hardware releases what it acquires | os/linux/os_linux.cpp: getDiskInfos, parseUUID, read_disk_labels, set_preferred_disks; os/linux/network.cpp: getAdapterInfos; os/linux/execution_environment.cpp: checkContainerProc; os/windows/network.cpp: getAdapterInfos | same, disks, container, adapters, windows_adapters, for_ever, at_most_two | Prop_HwRes.v |
| C90 | Only valid licenses count | licensecc.cpp: acquire_license, mergeLicenses; LicenseReader.cpp: readLicenses; limits/license_verifier.cpp | told, only_valid_matter, one_more, told_windows, only_valid_matter_windows, one_more_windows | Prop_Refused.v, Prop_WinRefused.v |
| C91 | Conversions between UTF-8, UTF-16 and UTF-32 account for everything | ini/ConvertUTF.cpp: ConvertUTF8toUTF16, ConvertUTF8toUTF32, ConvertUTF16toUTF8, ConvertUTF16toUTF32, ConvertUTF32toUTF8, ConvertUTF32toUTF16 | utf8_utf16, utf8_utf32, utf16_utf32, utf16_utf8, utf32_utf16, utf32_utf8 | Prop_Utf.v |
| C92 | Text is converted exactly, and back | ini/ConvertUTF.cpp | from_utf8, from_utf16, from_utf32, round_trip | Prop_Utf.v |
| C93 | What counts as legal UTF-8 | ini/ConvertUTF.cpp: isLegalUTF8, isLegalUTF8Sequence | legal, proper, improper_accepted, strict_ignored, strict_drops | Prop_Utf.v |
| C94 | INI texts in wide characters | ini/SimpleIni.h: SI_ConvertW, Converter::ConvertToStore, LoadData; ini/ConvertUTF.cpp | load, store, stored, round_trip | Prop_UtfWide.v |
| C95 | What the inspector prints, character by character | src/inspector/inspector.cpp: main, verifyLicense; os/linux/network.cpp: getAdapterInfos; os/linux/cpu_info.cpp; os/linux/dmi_info.cpp | output, identifiers, addresses_readable, quiet | Prop_Report.v |
| C96 | What the hardware identification depends on | os/linux/os_linux.cpp: getDiskInfos; os/linux/execution_environment.cpp; os/linux/dmi_info.cpp; hw_identifier/hw_identifier_facade.cpp; licensecc.cpp: identify_pc, acquire_license | disks, validate, acquire, identify, opened, container, text_has_lines, cgroup_lines, systemd_lines | Prop_SysFiles.v, Prop_SysLines.v |
| C97 | However a license reaches the library, it means the same | LicenseReader.cpp: readLicenses; locate/LocatorFactory.cpp; locate/ExternalDefinition.cpp; locate/ApplicationFolder.cpp; locate/EnvironmentVarLocation.cpp; locate/EnvironmentVarData.cpp; licensecc.cpp: acquire_license, identify_pc | issued_verdict, unlicensed, way_irrelevant, told_same, enrolled | Prop_Delivery.v |
| C98 | The life of a license on Windows | licensecc.cpp: acquire_license, identify_pc; os/windows/signature_verifier.cpp: verify_signature; os/windows/network.cpp; os/windows/os_win.cpp | issued_verdict, unlicensed, way_irrelevant, told_same, enrolled | Prop_WinIssue.v |
| C99 | A license that is found is not hidden by places where nothing is found | LicenseReader.cpp: readLicenses; base/EventRegistry.cpp: getLastFailure, turnWarningsIntoErrors; locate/LocatorStrategy.cpp; locate/EnvironmentVarLocation.cpp; locate/ExternalDefinition.cpp; licensecc.cpp: acquire_license | issued_verdict, unlicensed, as_if_alone, told_same, windows_verdict, windows_unlicensed, windows_as_if_alone | Prop_Found.v |
| C100 | identify_pc may be called from several threads | licensecc.cpp: identify_pc; os/execution_environment.hpp; os/linux/execution_environment.cpp; hw_identifier/hw_identifier_facade.cpp | one_environment, found, order, independent, no_deadlock, no_new_faults, can_finish | Prop_IdThreads.v |
| C101 | The static objects of the library: safe in one thread, and in many after the first use | os/openssl/signature_verifier.cpp: initialize, initialized, verify_signature; base/logger.cpp: logFile, _log, _shutdown_log | one_thread, after_first, messages_arrive, race_refuted, prepared_refuted, once_refuted, one_stream_refuted, prints_refuted, shutdown_prints_refuted, closes_refuted | Prop_Statics.v |
| C102 | An INI object that is edited behaves like a plain document | ini/SimpleIni.h: SetValue, AddEntry, Delete, Reset, LoadData, GetValue, GetAllValues, GetAllKeys, GetAllSections, GetSectionSize, Save | document, set_get, replace, append, frame, delete, delete_section, reset | Prop_IniEdit.v |
| C103 | The pointers an INI object gives out: how long they may be read and where they may be passed | ini/SimpleIni.h: AddEntry, CopyString, DeleteString, Delete, SetValue, GetAllKeys, GetAllSections, GetValue, Reset | pointers_stay, pass_back, delete_sections, delete_key_uaf, replace_key_uaf, replace_value_uaf, growth, reset_frees | Prop_IniMem.v |
| C104 | Numbers and flags stored in an INI object | ini/SimpleIni.h: SetLongValue, GetLongValue, SetBoolValue, GetBoolValue, SetDoubleValue | long, hex, bool, flag, double_overflow, double_fits | Prop_IniTyped.v |
| C105 | The text an INI object saves, read again, has the values the object had | ini/SimpleIni.h: Save, OutputMultiLineText, LoadData, FindEntry, GetAllValues | reloaded, written, library_reads, unnamed_lost | Prop_IniMultiText.v, Prop_IniText.v |
| C106 | Loading a text with values of several lines | ini/SimpleIni.h: LoadMultiLineText, FindEntry, IsMultiLineTag, LoadData, SetMultiLine | inside, off, loads, plain, empty_value, empty_tag | Prop_IniMulti.v |
| C107 | Values of several lines survive Save and LoadData | ini/SimpleIni.h: Save, IsMultiLineData, OutputMultiLineText, LoadMultiLineText, LoadData, SetMultiLine | written, reloaded, cut | Prop_IniMultiText.v |
| C108 | An INI object loaded from a saved text is the saved object | ini/SimpleIni.h: Save, OutputMultiLineText, LoadData, FindEntry, LoadMultiLineText, AddEntry, FindFileComment | same, text_again, single_values | Prop_IniSame.v |
| C109 | License files that change while they are read | base/file_utils.cpp: get_file_contents; locate/LocatorStrategy.cpp: retrieve_license_content; licensecc.cpp: acquire_license | text, grows, atomic, accept_sound, prefix, replace_safe | Prop_FileSteps.v |
| C110 | Doubles read from an INI object | ini/SimpleIni.h: GetDoubleValue; ini/SimpleIni.h: SetDoubleValue | one_number, read, missing, given, round_trip | Prop_Double.v |
| C111 | A license or INI text that is cut short | ini/SimpleIni.h: LoadData; ini/SimpleIni.h: FindEntry; licensecc.cpp: acquire_license | items, entries, lookup, value, never_better, call | Prop_Cut.v |
| C112 | An INI object saved to a file and loaded from it | ini/SimpleIni.h: SaveFile; ini/SimpleIni.h: LoadFile; ini/SimpleIni.h: FileWriter::Write | code, complete, prefix, load, inspector, round_trip, values, hole_refuted | Prop_IniFile.v |
| C113 | Byte order marks before INI and license texts | ini/SimpleIni.h: SetUnicode; ini/SimpleIni.h: LoadData; ini/SimpleIni.h: Save; licensecc.cpp: acquire_license | read, too_late, switch, saved, round_trip, harmless, section_lost, refused | Prop_IniBom.v |
| C114 | Reading fstab from several threads at once | os/linux/os_linux.cpp: set_preferred_disks; os/linux/os_linux.cpp: getDiskInfos; hw_identifier/disk_strategy.cpp: generate_disk_pc_id | undisturbed, wait_free, alone, turns, only_marks, same_identifiers, race_refuted, throws_refuted, first_identifier_refuted | Prop_MntEnt.v |
| C115 | Texts loaded one over the other | ini/SimpleIni.h: LoadData; ini/SimpleIni.h: AddEntry; ini/SimpleIni.h: CopyString; ini/SimpleIni.h: GetValue; ini/SimpleIni.h: GetAllValues; ini/SimpleIni.h: GetSectionSize | loads, get, all, section, texts, texts_all, one_load, again, again_refuted | Prop_IniLayers.v |
| C116 | The format of license data by its regular expressions | base/string_utils.cpp: identify_format; base/string_utils.cpp: INI_SECTION/B64 patterns; locate/EnvironmentVarData.cpp: retrieve_license_content, license_locations | patterns, matcher, format, same, stack, stack_license, stack_enough, stack_format | Prop_Regex.v, Prop_RegexDepth.v |
| C117 | Licenses when calls of OpenSSL fail | licensecc.cpp: acquire_license; limits/license_verifier.cpp: verify_signature; os/openssl/signature_verifier.cpp: verify_signature | same, outcome, accept_sound, never_better, blind, valid_accepted, returns_refuted, any_scheme_refuted | Prop_Shortage.v |
| C118 | What a line of the log says | base/logger.h: LOG_DEBUG, LOG_WARN, LOG_ERROR, clean_errno; base/logger.cpp: _log; hw_identifier/hw_identifier_facade.cpp: generate_user_pc_signature; os/linux/os_linux.cpp: read_disk_labels, getDiskInfos_dev, set_preferred_disks; os/windows/os_win.cpp: getDiskInfos | vfprintf, one_text, line, release, faulty, defined_refuted, verbatim, one_line_refuted | Prop_LogText.v |
| C119 | Licenses on Windows when calls of the cryptography provider fail | licensecc.cpp: acquire_license; limits/license_verifier.cpp: verify_signature; os/windows/signature_verifier.cpp: verify_signature, verifyHash, hashData | same, outcome, accept_sound, never_better, blind, valid_accepted, returns_refuted | Prop_WinShortage.v |
| C120 | The alternative identifier of a disk (parse_disk_id) | os/linux/os_linux.cpp:parse_disk_id | value, ends_iff, result, no_buffer, fits, short_texts_differ, one_character, places_exchanged, repeated_part, no_overrun | Prop_DiskId.v |
