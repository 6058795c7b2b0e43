{"id": "C01", "title": "LICENSE_OK is sound", "statement": "If acquire_license returns LICENSE_OK then among the locations it searched there is one whose content, as read during the call, has a section for the requested feature with a 'sig' entry and lic_ver 200, whose signature verifies over the signed text of that section, whose caller magic equals the project magic, whose valid-to (if any) is not before and valid-from (if any) not after the clock read during the call, and whose client-signature (if any) identifies this machine.", "quantifier": "every caller information, license location hint, environment, file system content (changing during the call), clock, signature oracle and machine", "why_tests_cant": "the set of licenses, file contents, clocks and machines is infinite; tests only sample a few valid/invalid files", "anchors": ["src/library/licensecc.cpp:acquire_license", "src/library/limits/license_verifier.cpp:verify_limits", "src/library/LicenseReader.cpp:readLicenses"]}
{"id": "C02", "title": "A valid license is always accepted", "statement": "If at least one searched location holds a license that is valid (in the sense of C01) at every instant of the call, and reading does not hit undefined behaviour or an exception, acquire_license returns LICENSE_OK whatever the other locations contain and in whatever order they are searched.", "quantifier": "every list of locations, every position of the valid license, every content of the others", "why_tests_cant": "combinatorially many mixes of good and bad licenses; a test fixes one order", "anchors": ["src/library/licensecc.cpp:acquire_license", "src/library/LicenseReader.cpp:readLicenses"]}
{"id": "C03", "title": "A failing acquire_license reports a failure code", "statement": "When acquire_license returns something else than LICENSE_OK the returned code is one of LICENSE_FILE_NOT_FOUND, ENVIRONMENT_VARIABLE_NOT_DEFINED, LICENSE_MALFORMED, PRODUCT_NOT_LICENSED, PRODUCT_EXPIRED, LICENSE_CORRUPTED, IDENTIFIERS_MISMATCH; it is never a progress code (LICENSE_SPECIFIED, LICENSE_FOUND, PRODUCT_FOUND, SIGNATURE_VERIFIED).", "quantifier": "every call of acquire_license that returns", "why_tests_cant": "the code is computed from the history of all events of all locations", "anchors": ["src/library/licensecc.cpp:acquire_license", "src/library/base/EventRegistry.cpp:getLastFailure"]}
{"id": "C04", "title": "A license with an invalid signature is never accepted", "statement": "If for every section that could be read the signature oracle rejects (signed text, sig), acquire_license does not return LICENSE_OK.", "quantifier": "every call, every signature oracle", "why_tests_cant": "needs all inputs, and an adversarial oracle", "anchors": ["src/library/limits/license_verifier.cpp:verify_signature", "src/library/licensecc.cpp:acquire_license"]}
{"id": "C05", "title": "Magic number is enforced", "statement": "If the magic passed by the caller (0 when no caller information is passed) differs from the project's magic number, acquire_license never returns LICENSE_OK.", "quantifier": "every magic number, every environment", "why_tests_cant": "2^32 magic numbers times every license", "anchors": ["src/library/licensecc.cpp:acquire_license", "src/library/limits/license_verifier.cpp:verify_limits", "src/templates/licensecc_properties.h.in:LCC_VERIFY_MAGIC"]}
{"id": "C06", "title": "The validity window is exact", "statement": "A license with a verified signature, right magic and no hardware lock is accepted iff midnight(valid-to) >= now and midnight(valid-from) <= now; the boundary second midnight(valid-to) itself is still accepted, the following second is not (so the last valid day of a license is valid-to exclusive of its daytime).", "quantifier": "every pair of dates and every clock value", "why_tests_cant": "boundary seconds over all dates; tests use far dates", "anchors": ["src/library/limits/license_verifier.cpp:verify_limits", "src/library/base/string_utils.cpp:seconds_from_epoch"]}
{"id": "C07", "title": "No C++ exception escapes the C API", "statement": "acquire_license returns a code, without letting a C++ exception through, whenever the hint type is known, the dates of the licenses it reads are well formed, and files seen to exist can still be read; every exception that does escape is explained by one of these circumstances, and each is enough: the unrestricted claim 'no exception ever escapes' is refuted by a license with a malformed valid-to.", "quantifier": "every file content, every license location, every file-system race", "why_tests_cant": "requires every malformed input and every race between the check and the read", "anchors": ["src/library/licensecc.cpp:acquire_license", "src/library/limits/license_verifier.cpp:toLicenseInfo", "src/library/base/file_utils.cpp:get_file_contents", "src/library/locate/ExternalDefinition.cpp:license_locations"]}
{"id": "C08", "title": "acquire_license never dereferences a null failure", "statement": "Whenever acquire_license dereferences the null pointer getLastFailure can return, either LICENSE_DATA is in use while LICENSE_LOCATION is unset, or there was no candidate license and no place recorded a failure; in the latter (silent) case it always does. The unrestricted claim 'a failing call always has a failure to report' is refuted: it fails in a build without the environment variable locators when there is no executable path or locator beside it and the hint names nothing.", "quantifier": "every configuration of the search", "why_tests_cant": "depends on OS failures and configuration flags that tests do not provoke", "anchors": ["src/library/licensecc.cpp:acquire_license", "src/library/base/EventRegistry.cpp:getLastFailure"]}
{"id": "C09", "title": "With several valid licenses the best one is reported", "statement": "The license information reported on success is that of one of the accepted licenses: the first perpetual one if any is perpetual (has_expiry = false), otherwise the first among those with the most days left.", "quantifier": "every list of accepted licenses", "why_tests_cant": "every number and order of licenses", "anchors": ["src/library/licensecc.cpp:mergeLicenses"]}
{"id": "C10", "title": "days_left and has_expiry", "statement": "has_expiry is true iff the license has a valid-to; days_left is 9999 without one, otherwise the number of seconds to midnight(valid-to) divided by 86400, rounded half away from zero, and 0 if that is negative.", "quantifier": "every date and clock", "why_tests_cant": "all time differences, rounding boundaries", "anchors": ["src/library/limits/license_verifier.cpp:toLicenseInfo"]}
{"id": "C11", "title": "linked_to_pc", "statement": "linked_to_pc is true iff the license section carries a client-signature key.", "quantifier": "every license", "why_tests_cant": "all sections", "anchors": ["src/library/limits/license_verifier.cpp:toLicenseInfo"]}
{"id": "C12", "title": "proprietary_data", "statement": "After a call that fills license_out, proprietary_data is the text of extra-data cut to 16 characters if the reported license has extra-data, empty when no license was found, and never written (indeterminate) exactly when the reported license has no extra-data. The unrestricted claim that it is then the empty string is refuted.", "quantifier": "every extra-data string", "why_tests_cant": "all strings; an uninitialised read is invisible to a test", "anchors": ["src/library/limits/license_verifier.cpp:toLicenseInfo", "include/licensecc/datatypes.h:LicenseInfo"]}
{"id": "C13", "title": "Exported audit events", "statement": "license_out->status receives exactly the last min(5,n) of the n events of the call, oldest first, and on LICENSE_OK none of the recorded events has severity ERROR.", "quantifier": "every event history", "why_tests_cant": "all histories, all lengths", "anchors": ["src/library/base/EventRegistry.cpp:exportLastEvents", "src/library/licensecc.cpp:acquire_license"]}
{"id": "C14", "title": "Single-license diagnosis", "statement": "When exactly one location is searched, the returned code is the diagnosis of that license: PRODUCT_NOT_LICENSED when it has no entries for the feature, LICENSE_MALFORMED when sig or lic_ver 200 is missing, LICENSE_CORRUPTED when the signature or the magic fails, PRODUCT_EXPIRED outside the window, IDENTIFIERS_MISMATCH on the wrong machine, LICENSE_OK otherwise.", "quantifier": "every content, every machine, every clock", "why_tests_cant": "exact characterisation for all contents", "anchors": ["src/library/licensecc.cpp:acquire_license", "src/library/LicenseReader.cpp:readLicenses"]}
{"id": "C15", "title": "The failure code is explained by the exported events", "statement": "When acquire_license fails, the returned code is that of an event recorded during the call, and when a single candidate license is searched (and no place recorded a failure) it is among the exported events, for that license. The unrestricted claim that it always is exported is refuted (only the last five events are, and the selected failure may be older).", "quantifier": "every event history", "why_tests_cant": "needs histories longer than the export window", "anchors": ["src/library/base/EventRegistry.cpp:getLastFailure", "src/library/base/EventRegistry.cpp:exportLastEvents"]}
{"id": "C16", "title": "More candidate locations never hurt", "statement": "Adding candidate locations (before, between or after) to a search that returns LICENSE_OK keeps it LICENSE_OK, provided the clock, files and machine answer the same way and no added location raises undefined behaviour or an exception.", "quantifier": "every two lists of candidates with one a sub-list of the other", "why_tests_cant": "monotonicity over all lists", "anchors": ["src/library/licensecc.cpp:acquire_license"]}
{"id": "C17", "title": "The signature binds the limits of a license", "statement": "The signed text is the plain concatenation of project/feature name, keys and values, so any two sections whose keys and values concatenate alike have the same signed text; in particular an expiry limit can be moved into the value of the preceding entry and thereby removed, with acquire_license accepting the altered license. The claim 'sections with different limits have different signed texts' is refuted.", "quantifier": "every pair of sections", "why_tests_cant": "collisions must be excluded over all pairs", "anchors": ["src/library/LicenseReader.cpp:printForSign"]}
{"id": "C18", "title": "What the signature does bind", "statement": "Two sections with the same signed key names (in the same order), where all values have known fixed lengths or where keys and values cannot be re-split, have the same signed text only if all their values agree up to surrounding blanks; the project name is bound up to case and surrounding blanks when the keys are the same.", "quantifier": "every pair of sections with equal keys", "why_tests_cant": "all pairs of sections", "anchors": ["src/library/LicenseReader.cpp:printForSign"]}
{"id": "C19", "title": "Features are isolated", "statement": "The outcome of acquire_license for a feature depends only on the entries of that feature's sections in each content (section and key names compared ASCII case-insensitively); editing, adding or removing sections of other features changes nothing. Both on Linux and on Windows.", "quantifier": "every content and every other section", "why_tests_cant": "all contents", "anchors": ["src/library/LicenseReader.cpp:readLicenses", "src/library/ini/SimpleIni.h:AddEntry"]}
{"id": "C20", "title": "Event registry invariant", "statement": "After any sequence of registry operations every recorded index is a valid index of the event log, at most one per license reference and for that reference, progress never decreases, and events are never lost or reordered.", "quantifier": "every operation sequence", "why_tests_cant": "unbounded histories", "anchors": ["src/library/base/EventRegistry.cpp"]}
{"id": "C21", "title": "Failure selection", "statement": "After any history, getLastFailure returns null iff no event has severity ERROR; after turnWarningsIntoErrors on a fresh history the failure selected belongs to a license that reached the furthest progress step, whenever one of those licenses failed after reaching it.", "quantifier": "every operation sequence", "why_tests_cant": "unbounded histories", "anchors": ["src/library/base/EventRegistry.cpp:getLastFailure", "src/library/base/EventRegistry.cpp:turnWarningsIntoErrors"]}
{"id": "C22", "title": "Severity conversions", "statement": "turnErrorsIntoWarnings removes every ERROR and changes nothing else, and makes isGood true; turnWarningsIntoErrors returns true iff it leaves some ERROR for a license that counts (most advanced, or any) and only raises WARN to ERROR; after it a failure exists iff some event was not INFO.", "quantifier": "every registry state reachable", "why_tests_cant": "unbounded histories", "anchors": ["src/library/base/EventRegistry.cpp"]}
{"id": "C23", "title": "base64 round trip", "statement": "unbase64(base64(d, len, lineLen)) = d for every byte string of length >= 3 and every line length.", "quantifier": "every byte string, every line length (including 0 and negative)", "why_tests_cant": "infinite inputs", "anchors": ["src/library/base/base64.cpp"]}
{"id": "C24", "title": "unbase64/base64 memory safety", "statement": "base64 reads out of bounds exactly for inputs of fewer than 3 bytes; unbase64 of a text reads out of bounds exactly for an explicit set of short or padded texts, and otherwise either decodes the text or reports failure, decoding being that of RFC 4648 up to what is said about line feeds and padding. The claim that both are memory safe for all inputs is refuted.", "quantifier": "every string", "why_tests_cant": "exact characterisation over all strings; over-reads are invisible to tests", "anchors": ["src/library/base/base64.cpp:unbase64", "src/library/base/base64.cpp:base64"]}
{"id": "C25", "title": "Hardware id print/parse round trip", "statement": "Parsing the printed form of any hardware identifier gives the identifier back, for all 2^64 identifiers; printing is injective.", "quantifier": "every identifier", "why_tests_cant": "2^64 identifiers", "anchors": ["src/library/hw_identifier/hw_identifier.cpp"]}
{"id": "C26", "title": "Hardware id text format", "statement": "Every printed identifier is 14 characters XXXX-XXXX-XXXX over the base64 alphabet, with '=' only as the last character, and fits the 20 byte buffer identify_pc asks for.", "quantifier": "every identifier", "why_tests_cant": "2^64 identifiers", "anchors": ["src/library/hw_identifier/hw_identifier.cpp:print", "src/library/licensecc.cpp:identify_pc"]}
{"id": "C27", "title": "Hardware id fields are independent", "statement": "Setting strategy, environment flag and data in any order does not disturb the other fields; the strategy read back is the one set for 0..7, the data match iff they agree on the low 5 bits of byte 0 and on bytes 1..6.", "quantifier": "every identifier, strategy, flag and data", "why_tests_cant": "bit interference over all values", "anchors": ["src/library/hw_identifier/hw_identifier.cpp"]}
{"id": "C28", "title": "Hardware id equality", "statement": "operator== is an equivalence relation, ignores only the first byte (environment flag), and agrees with same strategy and data_match.", "quantifier": "every pair/triple of identifiers", "why_tests_cant": "all pairs", "anchors": ["src/library/hw_identifier/hw_identifier.cpp:operator=="]}
{"id": "C29", "title": "A generated id validates on the same machine", "statement": "If identify_pc produces an identifier on a machine, validating it on the same unchanged machine gives LICENSE_OK, for every strategy and whatever the order in which devices are enumerated then.", "quantifier": "every machine, strategy, environment variable and enumeration order", "why_tests_cant": "all machines and enumeration orders", "anchors": ["src/library/hw_identifier/hw_identifier_facade.cpp", "src/library/hw_identifier/identification_strategy.cpp"]}
{"id": "C30", "title": "Validation does not depend on enumeration order and survives added devices", "statement": "The verdict for an identifier is the same for every enumeration order of the network adapters or disks, and adding adapters keeps valid identifiers valid.", "quantifier": "every permutation and superset of devices", "why_tests_cant": "all permutations", "anchors": ["src/library/hw_identifier/ethernet.cpp", "src/library/hw_identifier/disk_strategy.cpp", "src/library/os/linux/network.cpp"]}
{"id": "C31", "title": "Exactly the machine's own identifiers are accepted", "statement": "validate_pc_signature(text) = LICENSE_OK iff the text decodes to 8 bytes whose strategy is ethernet, ip or disk and whose 53 data bits are those derived from one of the machine's (non-zero) MAC addresses / IP addresses / disk serials / disk labels; otherwise IDENTIFIERS_MISMATCH.", "quantifier": "every text and machine", "why_tests_cant": "all texts, all machines", "anchors": ["src/library/hw_identifier/hw_identifier_facade.cpp:validate_pc_signature"]}
{"id": "C32", "title": "Unsupported strategies are rejected", "statement": "Identifiers claiming strategy 3..7 are never accepted and identify_pc with an unsupported strategy fails without touching the buffer.", "quantifier": "every strategy value, every machine", "why_tests_cant": "all values", "anchors": ["src/library/hw_identifier/identification_strategy.cpp:get_strategy", "src/library/licensecc.cpp:identify_pc"]}
{"id": "C33", "title": "identify_pc buffer protocol", "statement": "identify_pc never writes more than *bufSize bytes; with a null or too small buffer it returns false and sets *bufSize to 20 without writing; on success the buffer holds the NUL-terminated identifier; it never throws.", "quantifier": "every buffer size and machine", "why_tests_cant": "all sizes, all machines", "anchors": ["src/library/licensecc.cpp:identify_pc", "src/library/base/string_utils.cpp:mstrlcpy"]}
{"id": "C34", "title": "Different machines have different identifiers", "statement": "Identifiers derived from different MAC addresses, or from different IP addresses, never match. For disks the claim is refuted: two machines with different serial numbers can have matching identifiers (the top 3 bits of byte 0 and the 8th byte are dropped, long UUIDs are xor-folded, labels cut to 6 characters), also through the blkid cache.", "quantifier": "every pair of machines", "why_tests_cant": "all pairs", "anchors": ["src/library/hw_identifier/hw_identifier.cpp:set_data", "src/library/hw_identifier/disk_strategy.cpp", "src/library/os/linux/os_linux.cpp:parseUUID"]}
{"id": "C35", "title": "All-zero addresses are never used as identity", "statement": "No identifier is generated or accepted from an all-zero MAC or IP address; every adapter with a non-zero address contributes exactly one.", "quantifier": "every adapter list", "why_tests_cant": "all adapter lists", "anchors": ["src/library/hw_identifier/ethernet.cpp:generate_ethernet_pc_id"]}
{"id": "C36", "title": "Adapter enumeration", "statement": "getAdapterInfos reports exactly one adapter per distinct interface name having a non-loopback entry with an address, carrying the last IPv4 and last MAC seen for that name, and nothing from loopback interfaces; the result does not depend on how entries of different interfaces interleave.", "quantifier": "every ifaddrs list", "why_tests_cant": "all lists and interleavings", "anchors": ["src/library/os/linux/network.cpp:getAdapterInfos"]}
{"id": "C37", "title": "Disk preference order", "statement": "The identifiers of disks marked preferred come before the others, each group in enumeration order, for each disk the serial before the label; the generated identifier is the first. A listed disk is preferred if fstab names it by UUID, or if it is the first with the label fstab names, and only then; a line naming a device never makes it preferred (the claim that it does is refuted), and a LABEL= line reads uninitialised labels on disks without one.", "quantifier": "every disk list and fstab", "why_tests_cant": "all lists", "anchors": ["src/library/hw_identifier/disk_strategy.cpp:generate_disk_pc_id", "src/library/os/linux/os_linux.cpp:set_preferred_disks"]}
{"id": "C38", "title": "parseUUID", "statement": "parseUUID xor-folds the hex digits of the UUID (other characters ignored, a missing last digit counting as 0) into 8 bytes; it stays within its scratch buffer exactly if the UUID has more characters that are no hex digits than padding digits are needed, so it overruns for every UUID without separators. The claim that it always stays within is refuted.", "quantifier": "every uuid string", "why_tests_cant": "all strings; heap overflow of one byte is invisible to tests", "anchors": ["src/library/os/linux/os_linux.cpp:parseUUID"]}
{"id": "C39", "title": "parse_blkid", "statement": "The blkid parser terminates for every text and reports one disk per closing tag, numbered in order; for a well-formed cache (each device with PARTLABEL, UUID and TYPE) the reported serial, label and preference are those of the device and the first device has its own name. The claims that every device has its own name, and that a device without a PARTLABEL does not take over another's, are refuted.", "quantifier": "every blkid file", "why_tests_cant": "all files, positions", "anchors": ["src/library/os/linux/os_linux.cpp:parse_blkid", "src/library/os/linux/os_linux.cpp:getAttribute"]}
{"id": "C40", "title": "trim_copy", "statement": "trim_copy returns the string without leading whitespace and without trailing whitespace/NULs, is idempotent and never changes inner characters.", "quantifier": "every byte string", "why_tests_cant": "all strings", "anchors": ["src/library/base/string_utils.cpp:trim_copy"]}
{"id": "C41", "title": "split_string", "statement": "split_string returns the pieces between separators, except that a final empty piece is dropped; joining gives the input back (up to a trailing separator) and no piece contains the separator.", "quantifier": "every string and separator", "why_tests_cant": "all strings", "anchors": ["src/library/base/string_utils.cpp:split_string"]}
{"id": "C42", "title": "mstrlcpy", "statement": "mstrlcpy writes at most n bytes, NUL-terminates whenever n > 0, copies the longest prefix of the source that fits, and touches nothing beyond.", "quantifier": "every source, destination and n", "why_tests_cant": "all sizes", "anchors": ["src/library/base/string_utils.cpp:mstrlcpy"]}
{"id": "C43", "title": "mstrnlen_s reads only maxsize bytes", "statement": "mstrnlen_s(s, n) = min(strlen(s), n). It reads n+1 bytes when there is no NUL among the first n: the claim that it reads at most n bytes is refuted, and on an array of exactly n bytes without NUL it reads out of bounds.", "quantifier": "every array and n", "why_tests_cant": "over-read by one invisible to tests", "anchors": ["src/library/base/string_utils.cpp:mstrnlen_s"]}
{"id": "C44", "title": "Date parsing", "statement": "seconds_from_epoch accepts YYYYMMDD, YYYY-MM-DD and YYYY/MM/DD with digits and yields local midnight of that date, strings of any other length are rejected, and later dates give later instants (for an order-preserving mktime).", "quantifier": "every date and every string", "why_tests_cant": "all strings/dates", "anchors": ["src/library/base/string_utils.cpp:seconds_from_epoch"]}
{"id": "C45", "title": "License format detection", "statement": "identify_format answers BASE64 exactly for well-formed padded base64 text without line breaks (including the empty string), INI exactly for other texts containing a bracketed section on one line, UNKNOWN otherwise.", "quantifier": "every string", "why_tests_cant": "regular language membership over all strings", "anchors": ["src/library/base/string_utils.cpp:identify_format"]}
{"id": "C46", "title": "remove_extension", "statement": "remove_extension only ever removes a suffix starting with the last dot of the last path component, leaves names without such a dot alone, and the license file looked up beside the executable is that name plus '.lic'.", "quantifier": "every path", "why_tests_cant": "all paths", "anchors": ["src/library/base/file_utils.cpp:remove_extension", "src/library/locate/ApplicationFolder.cpp"]}
{"id": "C47", "title": "INI parsing terminates and is line oriented", "statement": "Parsing any license text terminates, never fails, and yields exactly the entries obtained by reading the text line by line (comment and malformed lines skipped).", "quantifier": "every text", "why_tests_cant": "all texts", "anchors": ["src/library/ini/SimpleIni.h:LoadData", "src/library/ini/SimpleIni.h:FindEntry"]}
{"id": "C48", "title": "INI lookup", "statement": "The key comparison is a strict weak order whose equivalence is ASCII case-insensitive equality; a lookup returns the value of the last occurrence of the key in any section of that name.", "quantifier": "every text, section and key", "why_tests_cant": "all texts", "anchors": ["src/library/ini/SimpleIni.h:SI_GenericNoCase", "src/library/ini/SimpleIni.h:AddEntry", "src/library/ini/SimpleIni.h:GetValue"]}
{"id": "C49", "title": "INI save/load round trip", "statement": "Saving a set of well-formed, distinctly named sections and loading the result gives the same sections, keys and values, and saving a loaded text and loading it again changes nothing if the text has no nameless section header. The claim without that condition is refuted.", "quantifier": "every well-formed configuration", "why_tests_cant": "all configurations", "anchors": ["src/library/ini/SimpleIni.h:Save", "src/library/ini/SimpleIni.h:LoadData"]}
{"id": "C50", "title": "License size limit", "statement": "Only the first 4096 bytes of a license file, and of these only those before the first NUL, influence the outcome of acquire_license. Both on Linux and on Windows.", "quantifier": "every file", "why_tests_cant": "all files", "anchors": ["src/library/base/file_utils.cpp:get_file_contents", "src/library/locate/LocatorStrategy.cpp"]}
{"id": "C51", "title": "Search order", "statement": "Candidate licenses are examined in the documented order: beside the executable, LICENSE_LOCATION paths left to right, LICENSE_DATA, then the caller's hint (paths left to right); disabled sources are not consulted; only existing files are candidates. Both on Linux and on Windows.", "quantifier": "every configuration and environment", "why_tests_cant": "all configurations", "anchors": ["src/library/locate/LocatorFactory.cpp", "src/library/locate/ExternalDefinition.cpp", "src/library/base/file_utils.cpp:filter_existing_files"]}
{"id": "C52", "title": "LICENSE_ENCODED works", "statement": "A valid license passed base64-encoded as LICENSE_ENCODED is treated exactly like the plain one if the encoded text ends with a NUL byte. Without it (the documented use) the decoded bytes are used as an unterminated C string: the claim that encoded licenses always work is refuted. Both on Linux and on Windows.", "quantifier": "every encoded license", "why_tests_cant": "undefined behaviour is not observable by a test", "anchors": ["src/library/locate/ExternalDefinition.cpp:retrieve_license_content"]}
{"id": "C53", "title": "LICENSE_DATA works", "statement": "The claim that a license placed in the LICENSE_DATA environment variable is the one examined is refuted: the content is read from LICENSE_LOCATION instead (a null pointer is used when that is unset). Both on Linux and on Windows.", "quantifier": "every environment", "why_tests_cant": "all environments", "anchors": ["src/library/locate/EnvironmentVarData.cpp"]}
{"id": "C54", "title": "Execution environment consistency", "statement": "identify_pc reports the environment described by the files and the processor (Spec_Exec): the provider is the first row of a word table one of whose words occurs in the DMI texts (or unknown), the virtualisation detail is one of the products shown by the first of five texts that shows any (or V_OTHER under a hypervisor or in a cloud, else bare metal), and every such product is reported for some iteration order of the hash tables; virtualization is CONTAINER iff a container is detected, otherwise VM iff the detail differs from BARE_TO_METAL, and a known public cloud implies VM or CONTAINER. Provider, container and summary do not depend on the iteration order, and the detail does not if at most one vendor matches each text. Detection is defined exactly unless the modalias file is readable but blank or the sys_vendor file is readable with fewer than two characters; the claims that the detail never depends on the order and that detection is always defined are refuted.", "quantifier": "every DMI/CPU/cgroup content and iteration order", "why_tests_cant": "all contents, all iteration orders", "anchors": ["src/library/os/execution_environment_common.cpp", "src/library/os/linux/execution_environment.cpp"]}
{"id": "C55", "title": "Log path stays in its buffer", "statement": "The log file path is built within its 255 byte buffer if TMPDIR has fewer than 238 characters and overruns it otherwise, for every sequence of log calls; the claim that it always stays within is refuted.", "quantifier": "every TMPDIR value", "why_tests_cant": "needs all lengths", "anchors": ["src/library/base/logger.cpp:getLogFname"]}
{"id": "C56", "title": "Signature buffer stays in bounds", "statement": "Checking a signature text stays within the 512 byte buffer if every signature read decodes to fewer than 512 bytes (and its decoding does not fail), in particular for texts up to 682 characters when decoding yields at most 3 bytes per 4 characters; the claim that it does for every text is refuted.", "quantifier": "every signature text", "why_tests_cant": "memory errors invisible to tests", "anchors": ["src/library/os/openssl/signature_verifier.cpp:verify_signature"]}
{"id": "C57", "title": "The default identification strategy", "statement": "identify_pc with STRATEGY_DEFAULT (and no IDENTIFICATION_STRATEGY variable) gives exactly what the disk strategy gives on bare metal and what the ethernet strategy gives in virtual machines outside the known clouds and in lxc containers, and always fails in docker containers and in the known clouds; the claim that it is available wherever a concrete strategy is, is refuted.", "quantifier": "every machine and every execution environment", "why_tests_cant": "ranges over all DMI, cgroup, CPU and device contents; a test sees one machine", "anchors": ["src/library/hw_identifier/default_strategy.cpp: DefaultStrategy::generate_pc_id", "src/library/hw_identifier/hw_identifier_facade.cpp: generate_user_pc_signature", "src/templates/licensecc_properties.h.in"]}
{"id": "C58", "title": "Every call returns, or there is a known reason", "statement": "For every world, caller, hint and output pointer acquire_license terminates and returns a code, unless one of an explicit list of circumstances holds (unterminated feature or hint, unknown hint type, over-long path, file vanishing between check and read, LICENSE_DATA without LICENSE_LOCATION, undecodable or unterminated encoded license, over-long signature, malformed date, days out of int range, undefined behaviour while identifying the hardware, nothing to search and nothing to report).", "quantifier": "all worlds (files, clock, environment, hardware changing during the call), callers, hints, starting instants", "why_tests_cant": "absence of any other exception, undefined behaviour or non-termination over all inputs and file system histories cannot be sampled", "anchors": ["src/library/licensecc.cpp:acquire_license", "src/library/LicenseReader.cpp", "src/library/limits/license_verifier.cpp", "src/library/locate"]}
{"id": "C59", "title": "The disk listing, completely", "statement": "For every content of /dev/disk/by-uuid, by-label, by-partlabel, of the blkid cache files and of fstab, the disk listing used for disk identifiers is the described one: one disk per inode among the first entries until 40 disks are found, with serial from the name, device from the link, label from the last by-label entry; otherwise the devices of the blkid cache with attribute values as found in overlapping windows; preferred as named in fstab; and it overflows, reads uninitialised labels or throws exactly as described. It succeeds on udev-named entries when fstab has no LABEL= line.", "quantifier": "all directory contents, inode numbers, link texts, blkid texts and fstab lines", "why_tests_cant": "the result is a function of unbounded directory and file contents; memory errors occur only for particular shapes", "anchors": ["src/library/os/linux/os_linux.cpp:getDiskInfos", "src/library/os/linux/os_linux.cpp:getDiskInfos_dev", "src/library/os/linux/os_linux.cpp:getDiskInfos_blkid", "src/library/os/linux/os_linux.cpp:set_preferred_disks", "src/library/os/linux/os_linux.cpp:read_disk_labels"]}
{"id": "C60", "title": "What the processor says", "statement": "The CPU vendor is the 12 characters packed in ebx, edx, ecx of cpuid leaf 0; the CPU brand is the processor's brand string if that is longer than 32 characters, and the text NA if it is shorter (the availability test reads the wrong leaf), never longer than 48 characters; the hypervisor bit is bit 31 of ecx of leaf 1. Hence the claim that a processor whose brand names KVM is recognised as virtual is refuted.", "quantifier": "every answer of the cpuid instruction", "why_tests_cant": "a test runs on one processor", "anchors": ["src/library/os/linux/cpu_info.cpp: get_cpu_vendor, get_cpu_brand, is_hypervisor_set, model", "src/library/os/execution_environment_common.cpp"]}
{"id": "C61", "title": "The environment is examined once per process", "statement": "In every sequence of identify_pc calls of one process, all calls that ask for the execution environment get the same answer, the one the first call found (whether or not that call asked), while the identifiers are always those of the machine at the time of the call; the claim that the environment reported is the current one is refuted.", "quantifier": "every history of identify_pc calls with arbitrary changes of the machine between them", "why_tests_cant": "ranges over all call histories and all changes of the surroundings", "anchors": ["src/library/licensecc.cpp: identify_pc (static exec_env)"]}
{"id": "C62", "title": "The IDENTIFICATION_STRATEGY variable chooses the identification method exactly by the number it begins with", "statement": "identify_pc looks at the environment variable IDENTIFICATION_STRATEGY only when the caller asks for the default method and only if the variable is not empty. Every text stands for exactly one number (leading blanks, sign, digits; saturated to 64 bits, then truncated to 32; 0 if it begins with no number). 0, 1 and 2 give exactly the identifier the caller would get by asking for that strategy directly, with the 'from the environment' mark set and nothing else changed, and fail in exactly the same way; 3 always fails; any other number is ignored. A text that begins with no number counts as 0, so the natural claim that unrecognised texts are ignored is false.", "quantifier": "every value of the variable (any bytes, or unset), every machine (interfaces, disks, execution environment) and every requested method", "why_tests_cant": "The variable is an arbitrary text and the machine an arbitrary set of interfaces and disks; equality of both outcomes for all of them, including saturation and truncation of huge numbers, is universal.", "anchors": ["src/library/hw_identifier/hw_identifier_facade.cpp: HwIdentifierFacade::generate_user_pc_signature", "src/library/hw_identifier/hw_identifier.cpp: set_use_environment_var", "src/library/hw_identifier/identification_strategy.cpp: get_strategy"]}
{"id": "C63", "title": "SMBIOS table walk (Windows)", "statement": "Feeding any bytes to the SMBIOS parser terminates: either it lists header positions that lie in the table and whose strings can be extracted, or it reads outside the table. For every table of well-formed structures it lists exactly the starts of the structures in order and extracts exactly the strings of each. The claim that it never reads outside a table is refuted (a table that breaks off inside a structure).", "quantifier": "every byte table and every sequence of well-formed structures", "why_tests_cant": "ranges over all firmware tables, of any size and content", "anchors": ["src/library/os/windows/smbios.hpp: parser::feed, parser::skip, parser::extract_strings"]}
{"id": "C64", "title": "DMI information on Windows", "statement": "For every delivered table of well-formed, sufficiently long structures the system vendor, BIOS vendor, BIOS description, CPU manufacturer and core count are those told by the last structure of the right type that names one (empty or 0 if none), and reading them is undefined exactly if a used string reference is smaller than the structure's length but larger than its number of strings. Without a table all are empty. The claims that a well-formed table is always read without undefined behaviour, and that the core count only comes from structures that have the field, are refuted.", "quantifier": "every sequence of well-formed structures and every firmware answer", "why_tests_cant": "ranges over all firmware tables", "anchors": ["src/library/os/windows/dmi_info.cpp: readSMBIOS, DmiInfo::DmiInfo", "src/library/os/dmi_info.hpp"]}
{"id": "C65", "title": "Life of an SMBIOS parser object", "statement": "For every sequence of feed and clear calls on a parser object followed by its destruction, the table memory is freed twice exactly if some clear comes after a feed.", "quantifier": "every operation history", "why_tests_cant": "ranges over all operation sequences", "anchors": ["src/library/os/windows/smbios.hpp: parser::feed, parser::clear, parser::~parser"]}
{"id": "C66", "title": "IP address texts on Windows", "statement": "An adapter's address text in dotted decimal (four numbers up to 255) becomes exactly those four bytes, whatever follows the terminator. For any other terminated text the result is the first four groups of digits, each modulo 256 and missing ones 0, and it is undefined behaviour exactly if a further group is not empty; a text without terminator is always undefined behaviour.", "quantifier": "every byte text", "why_tests_cant": "ranges over all texts", "anchors": ["src/library/os/windows/network.cpp: translate"]}
{"id": "C67", "title": "Network adapters on Windows", "statement": "Whenever the system delivers its adapter list (at once or after the buffer is enlarged) with dotted addresses, the result is exactly the Ethernet adapters with a non-zero hardware address, with description, six bytes of address and IP, sorted by decreasing rank (two points per trusted word, minus two per suspicious word of the description, without regard to case), or not available if there is none. The comparison is a strict weak order, so the result for adapters of different rank does not depend on the enumeration order or the sorting algorithm. Failures to allocate or of the second call are reported as errors. The claim that every failure of the system call is reported is refuted (first call failing otherwise than by overflow uses an uninitialised buffer).", "quantifier": "every adapter list, enumeration order, correct sorting algorithm and API outcome", "why_tests_cant": "ranges over all adapter lists and all sorting algorithms std::sort may be", "anchors": ["src/library/os/windows/network.cpp: getAdapterInfos, scoreAdapterInfo, comparator"]}
{"id": "C68", "title": "Disks on Windows", "statement": "The disk list consists exactly of the readable volumes on fixed drives among the first 40 drives, in order and numbered from 0; each carries its 32 bit serial number lowest byte first followed by four zero bytes, the file system name (at most 254 bytes) as label and is preferred exactly if its root starts with C. The result is not available exactly if there is none.", "quantifier": "every drive configuration", "why_tests_cant": "ranges over all machines", "anchors": ["src/library/os/windows/os_win.cpp: getDiskInfos"]}
{"id": "C69", "title": "Acceptance of a hardware identifier on Windows", "statement": "On every Windows machine whose adapters are readable, a code gets a verdict unless the base64 decoder reads beyond it (then undefined), and it is accepted exactly if its strategy and 53 data bits are those of the MAC or non-zero IP address of a usable adapter or of the serial number or file system name of a volume of this machine; codes of the disk strategy get this verdict whatever the state of the network. The platform independent code used here, applied to what Linux delivers, computes the same as the Linux model of the other properties. Any code made from the name NTFS is accepted on every machine with an NTFS volume; the claim that machines accepting the same code share an address or a serial number is refuted.", "quantifier": "every Windows machine and every code text", "why_tests_cant": "ranges over all machines and texts", "anchors": ["src/library/hw_identifier/hw_identifier_facade.cpp", "src/library/hw_identifier/disk_strategy.cpp", "src/library/hw_identifier/ethernet.cpp", "src/library/os/windows/os_win.cpp", "src/library/os/windows/network.cpp"]}
{"id": "C70", "title": "Generated identifiers on Windows", "statement": "An identifier that identify_pc writes on a Windows machine is accepted when the same machine validates it later, with its adapters enumerated in any order. The disk strategy uses the serial number of the first volume on drive C, or of the first volume if none is there, and fails exactly if there is no volume; the ethernet strategy uses the address of a usable adapter of highest rank, the IP strategy that of one of highest rank among those with a non-zero IP address. Without a requested strategy it is the disk on bare metal, the adapter in a virtual machine, and always a failure in a recognised cloud.", "quantifier": "every Windows machine, buffer, strategy and enumeration order", "why_tests_cant": "ranges over all machines and orders", "anchors": ["src/library/licensecc.cpp: identify_pc", "src/library/hw_identifier/default_strategy.cpp", "src/library/os/windows/network.cpp", "src/library/os/windows/os_win.cpp"]}
{"id": "C71", "title": "Execution environment on Windows", "statement": "For every Windows machine with a readable firmware table (or none) identify_pc reports the cloud whose word is found first in the fixed order, a virtualisation product named by the first text (BIOS description, BIOS vendor, board vendor, CPU vendor, CPU name) naming any, else other if the hypervisor bit is set or a cloud was found, else bare metal; virtual machine exactly if the detail is not bare metal, never a container. The CPU vendor, name (of every length up to 48), hypervisor bit and model are those the processor answers. The claim that products named in the texts are recognised in any spelling is refuted: the texts are not converted to upper case. The uncalled Wine detection reports a container exactly if one of the first 20 drives is fixed and has the file.", "quantifier": "every firmware table of well-formed structures, every CPU, every hash order", "why_tests_cant": "ranges over all machines", "anchors": ["src/library/os/execution_environment_common.cpp", "src/library/os/windows/execution_environment.cpp", "src/library/os/windows/cpu_info.cpp"]}
{"id": "C72", "title": "The public key on Windows", "statement": "For every DER encoded PKCS #1 public key with a modulus of 128 octets and an exponent of 3 octets, the key handed to the Windows provider consists of exactly these two numbers. The claim for every well-formed key is refuted: with an exponent below 2^16 the last octets of the exponent are never written, and with a modulus of 2048 bits nothing is written and a key made of what is on the stack is imported.", "quantifier": "every well-formed key encoding, every content of unwritten memory", "why_tests_cant": "ranges over all keys", "anchors": ["src/library/os/windows/signature_verifier.cpp: read_length, read_sequence, read_integer, readPublicKey"]}
{"id": "C73", "title": "Signature verification on Windows", "statement": "With a well-formed 1024 bit key, for every text, signature text and behaviour of the provider: the signature is accepted exactly if every provider call succeeds and the decoded signature is verified by the provider for the hash of the text under that key; it is an error exactly if everything is available and the key or signature is not good; an exception leaves the function exactly if the hash provider cannot be opened or the signature is just two equals signs; it is undefined exactly if the decoder reads beyond the signature text or decodes it to nothing. Whenever it returns, every handle and heap block has been released exactly once. The claim that nothing is leaked is refuted (two equals signs).", "quantifier": "every text, signature and provider behaviour, including every failure point", "why_tests_cant": "ranges over all failure points and texts", "anchors": ["src/library/os/windows/signature_verifier.cpp: verify_signature, verifyHash, openHashProvider, hashData"]}
{"id": "C74", "title": "Signature verification with OpenSSL: failures and resources", "statement": "For every outcome of every OpenSSL call: the signature is accepted exactly if the key is read, all objects needed are there and the digest of the text verifies with the signature obtained (decoded; as it is without memory for the decoder; empty without memory for the source). Whenever the call returns, every object acquired has been released exactly once, except the RSA key if it could not be put into a key object, which is then leaked. With memory for every object this is the verification used by the other properties.", "quantifier": "every text, signature and outcome of every library call", "why_tests_cant": "ranges over all failure points", "anchors": ["src/library/os/openssl/signature_verifier.cpp: verify_signature, free_resources"]}
{"id": "C75", "title": "The inspector's report on a license file", "statement": "For every world in which nothing changes during the run, every file and every content of uninitialised memory: every code acquire_license returns has its own description (no failed lookup). The line about the default project says OK exactly if the project was built without magic number and some searched place (the file given is only one of them) has a valid license for it. A section is reported OK exactly if the uninitialised magic number of the request equals that of the project and a valid license for the section is found; names of up to 14 characters are passed on in full. The sections reported are sections of the file, and all of them are unless the project name has 15 characters. A path longer than 4096 bytes overflows the request. The claim that a section with a valid license is reported OK is refuted: with another leftover magic number none ever is.", "quantifier": "every world without change, file, path, and content of uninitialised memory", "why_tests_cant": "ranges over all files and all contents of uninitialised memory", "anchors": ["src/inspector/inspector.cpp: verifyLicense, stringByEventType", "src/library/ini/SimpleIni.h: LoadFile, GetAllSections"]}
{"id": "C76", "title": "What the inspector prints", "statement": "For every machine that stays the same during the run: the four identifier lines show what identify_pc answers for each strategy, and every identifier shown is accepted in a license on this machine; the environment lines describe what was detected and determine it. One group of lines is printed for each network interface heard of, with its MAC address. The files reported on are exactly the argument (if it is the only one) and the pieces of the environment variable, in order, 'not found' exactly if the file could not be opened. The claim that the IP address is shown in the usual order is refuted: it is shown from its last octet to its first.", "quantifier": "every machine, environment, arguments and files", "why_tests_cant": "ranges over all machines and file systems", "anchors": ["src/inspector/inspector.cpp: main, descByVirt, descByVirtDetail, descByCloudProvider"]}
{"id": "C77", "title": "Loading a license text is memory safe and its strings stay valid", "statement": "For every byte string handed to the INI loader: loading ends, every read, write and block move done while parsing in place falls inside the loader's own copy of the text (whose size is the length of the text plus one), and no pointer before the copy is formed. One entry is kept for each item of the text, and when loading is over each of its pointers leads to the NUL-terminated section name, key or value the text gives; what was compared when the entry was stored is what is read later. A comment handed over with an entry starts with a comment character. Looking up any name without a line end in the result answers exactly what the text says; only the sections opened by a '[' without ']' get a name, and that name contains a line end.", "quantifier": "every text, of any length, with any bytes, comments, line ends and unfinished headers", "why_tests_cant": "the parser overwrites the text it is reading (NULs after names, keys and values; lines of comments moved down over blank lines and carriage returns), so that an out of bounds access or a string cut later by another line needs a particular arrangement of comments, blanks and line ends; tests try a few files", "anchors": ["src/library/ini/SimpleIni.h: LoadData, FindFileComment, FindEntry, LoadMultiLineText, SkipNewLine, AddEntry"]}
{"id": "C78", "title": "acquire_license on Windows accepts exactly the valid licenses", "statement": "For a library built with a 1024-bit key, on a Windows machine whose network adapters are listed whenever the system is asked, and with source names below 260 characters: a call of acquire_license that returns LICENSE_OK has found, among the sources named by the hint, the environment and the executable's directory, a license whose signature the Windows crypto provider verifies over the feature and its limits, with the magic number of the project, in time, and whose client signature (if any) names something this machine has (disk volume, adapter) - and a source that holds such a license all the time is enough. With nothing changing meanwhile it is an equivalence. Otherwise the code is one of seven, each with its reason. The same call written over a platform interface is, with the Linux implementations plugged in, the Linux call.", "quantifier": "every content of the sources, every environment, caller and hint, every provider, clock and machine and every change of them during the call", "why_tests_cant": "signature checking, hardware data and bounded string copies are different code on Windows; tests run on one machine with one provider and cannot vary the provider's answers, the adapters or the clock during a call", "anchors": ["src/library/licensecc.cpp: acquire_license", "src/library/os/windows/signature_verifier.cpp: verify_signature", "src/library/hw_identifier/hw_identifier_facade.cpp: validate_pc_signature", "src/library/base/EventRegistry.cpp: addEvent, exportLastEvents", "src/library/base/string_utils.h: mstrlcpy", "src/library/os/windows/os_win.cpp"]}
{"id": "C79", "title": "On Windows acquire_license returns unless there is one of seventeen listed reasons", "statement": "With a 1024-bit key, network adapters that can be listed, and source names below 260 characters: every call of acquire_license on Windows returns an event code, or one of the listed circumstances holds and explains the fault it ends with (feature or hint not terminated, unknown hint type, a file that vanished, LICENSE_DATA without LICENSE_LOCATION, an encoded license that cannot be decoded or has no NUL, no hashing provider, a signature that is cut short, is '==' or decodes to nothing, a malformed date, days that do not fit an int, an identifier cut short, nothing to look at). Without them it returns, and then a valid license yields LICENSE_OK. Exceptions and null pointers have their own complete lists. One license with an undecodable or empty signature anywhere in the places searched keeps every call from returning.", "quantifier": "every content of the sources, every environment, caller and hint, every provider, clock and machine and every change of them during the call", "why_tests_cant": "the faults need particular texts, provider failures or changes between two system calls; a test shows that one call returned, not that every other one does", "anchors": ["src/library/licensecc.cpp: acquire_license", "src/library/os/windows/signature_verifier.cpp: verify_signature", "src/library/base/base64.cpp: unbase64", "src/library/limits/license_verifier.cpp", "src/library/LicenseReader.cpp", "src/library/locate/"]}
{"id": "C80", "title": "The layout of a license does not matter", "statement": "Two ways to write the same license document - with other blank lines, comments (; or #), spaces and tabs around section names, keys and values, text after a section header, LF, CR or CRLF line ends, a missing last line end, other cases of section names, or the sections and the entries in another order (with no name twice) - make acquire_license give the same result in every detail: code, diagnostics and license information, both as text in the hint and in files. What the library reads from such a text is exactly the document. Both on Linux and on Windows.", "quantifier": "every document, every two layouts of it, every caller, environment, clock and machine", "why_tests_cant": "the layouts of a document are infinitely many; a test has a few sample files", "anchors": ["src/library/ini/SimpleIni.h: FindEntry, LoadData", "src/library/LicenseReader.cpp: readLicenses", "src/library/licensecc.cpp: acquire_license"]}
{"id": "C81", "title": "A license that is issued properly is accepted, and refused for the right reason", "statement": "When the issuer writes the limits of a license and a signature of them under the feature's section, in any order and layout, and the library's key honours that signature, then acquire_license given this text returns; the code is LICENSE_OK exactly when the magic number is the project's, the date is between valid-from and valid-to, and the client signature (if any) is that of this machine; otherwise the code is the one for the limit that fails (LICENSE_CORRUPTED, PRODUCT_EXPIRED, IDENTIFIERS_MISMATCH). A document without a section for the feature gives PRODUCT_NOT_LICENSED.", "quantifier": "every set of limits, every signature scheme, feature, layout, date and machine", "why_tests_cant": "it is the end-to-end correctness of issuing and checking, for all licenses; tests issue a handful", "anchors": ["src/library/licensecc.cpp: acquire_license", "src/library/LicenseReader.cpp: readLicenses, printForSign", "src/library/limits/license_verifier.cpp: verify_signature, verify_limits"]}
{"id": "C82", "title": "Calls are repeatable", "statement": "While files, clock and hardware do not change, acquire_license called again gives the same result, the same code or the same fault and the same information, however many calls came before, on Linux and on Windows: no call leaves anything behind that a later one sees. The code does not depend on what the caller's license_info structure held or on whether one is passed.", "quantifier": "every surroundings, every caller and hint, every number of calls before", "why_tests_cant": "a hidden state could matter only after a particular history; tests cannot go through all histories", "anchors": ["src/library/licensecc.cpp: acquire_license", "src/library/base/EventRegistry.cpp"]}
{"id": "C83", "title": "Feature names are case-insensitive", "statement": "Two callers that ask for features whose names differ in case only get the same result in every detail, on Linux and on Windows; a caller that names the project, in any case, gets what a caller that names no feature gets.", "quantifier": "every pair of such names, every license content, environment, clock and machine", "why_tests_cant": "all spellings with all license contents cannot be enumerated; the name takes part in the section look-up and in the signed text", "anchors": ["src/library/licensecc.cpp: acquire_license", "src/library/LicenseReader.cpp: readLicenses, printForSign", "src/library/base/string_utils.cpp: toupper_copy"]}
{"id": "C84", "title": "The clock, the hardware and the key matter only for licenses that refer to them", "statement": "If no license found has an end date, and no genuine one made for this product has a start date, acquire_license gives the same result at any time. If no genuine license made for this product is locked to a machine, it gives the same result on every machine (in particular the hardware is not consulted for a forged license). With another public key under which the signatures of the licenses found verify alike the result is the same; with no license any key will do. Both on Linux and on Windows.", "quantifier": "every pair of clocks, machines, keys, and every content of the sources", "why_tests_cant": "a dependence on the surroundings shows only in comparison of two runs; tests have one clock and one machine", "anchors": ["src/library/licensecc.cpp: acquire_license", "src/library/limits/license_verifier.cpp: verify_limits, toLicenseInfo", "src/library/hw_identifier/hw_identifier_facade.cpp: validate_pc_signature"]}
{"id": "C85", "title": "What a call touches", "statement": "A call of acquire_license touches its surroundings in a fixed order and no more than needed: it searches the places one after the other, looking in each for all the files that are named and then reading those that were there, then it checks the licenses found, in the order found: the time once if the license has an end date, once more if the signature is good, and the hardware only for a genuine license of this product that is in time and locked to a machine. No other file is touched, whether or not the call returns; at most five accesses are made for every source named.", "quantifier": "every configuration, environment, hint and caller, every content and change of files, clock and hardware, calls that return and calls that do not", "why_tests_cant": "an access too many or in the wrong order shows only in particular surroundings and leaves no trace in the result; a test sees the result", "anchors": ["src/library/licensecc.cpp: acquire_license", "src/library/LicenseReader.cpp: readLicenses", "src/library/base/file_utils.cpp: filter_existing_files, get_file_contents", "src/library/limits/license_verifier.cpp: verify_signature, verify_limits, toLicenseInfo"]}
{"id": "C86", "title": "Calls from several threads do not disturb each other", "statement": "When several threads call acquire_license, with accesses to files, clock and hardware interleaved in any order: every call returns what it would return alone at the instants of its accesses, all of which are between its beginning and its end; LICENSE_OK is backed by a license valid during the call; if files, clock and hardware do not change, every call returns what it returns alone; a thread makes its calls in order, and completes them within a number of its own steps that depends on its calls only, however the others are scheduled; a fault is one that a call has alone. (An examination of the hardware counts as one access.)", "quantifier": "every number of threads, every list of calls of each, every schedule, every change of the surroundings", "why_tests_cant": "schedules are infinitely many and a test meets a few of them", "anchors": ["src/library/licensecc.cpp: acquire_license", "src/library/base/EventRegistry.cpp", "src/library/LicenseReader.cpp: readLicenses", "src/library/limits/license_verifier.cpp"]}
{"id": "C87", "title": "From identify_pc to an accepted license", "statement": "A machine that has been identified by identify_pc, with any strategy for which it succeeds, and for which a license is issued with the identification as client-signature, accepts that license: as long as it still has the hardware it had (other hardware may have been added) acquire_license, given the text of the license, returns LICENSE_OK within the dates of the license and PRODUCT_EXPIRED outside them; a machine that shares none of the identifiers returns IDENTIFIERS_MISMATCH.", "quantifier": "every machine, strategy, buffer, product, set of limits, way of writing down the license, instant and later change of hardware", "why_tests_cant": "the round trip passes through four components; a test shows it on the machine it is run on", "anchors": ["src/library/licensecc.cpp: identify_pc, acquire_license", "src/library/hw_identifier/hw_identifier_facade.cpp", "src/library/limits/license_verifier.cpp: verify_limits", "src/library/hw_identifier/hw_identifier.cpp"]}
{"id": "C88", "title": "Only the passage of time", "statement": "If files and hardware stay as they are and the clock is not set back, and no license found has yet to begin: a call that is refused is followed by refusals only; between two successes the kind of expiry stays the same and the number of days left never grows; when a call has told d days, with d at least one, later calls succeed until d days minus half a day have passed, and fail once d days and half a day have passed; a license without end date is accepted for ever. Both on Linux and on Windows.", "quantifier": "every two calls of acquire_license with the same arguments, however far apart, every set of licenses", "why_tests_cant": "a test cannot wait; the statement is about all pairs of instants and all sets of licenses found", "anchors": ["src/library/licensecc.cpp: acquire_license", "src/library/limits/license_verifier.cpp: verify_limits, toLicenseInfo", "src/library/base/base64.cpp", "src/library/base/string_utils.cpp: seconds_from_epoch"]}
{"id": "C89", "title": "The enumeration of the hardware releases what it acquires", "statement": "Whatever the system contains, when the list of the disks (Linux), the kind of container (Linux) or the list of the network adapters (Linux and Windows) has been determined, or the determination was left by an exception, every directory, stream and block of memory acquired through a plain pointer has been released, exactly once, so a program can ask as often as it likes; at no moment more than two of them are held.", "quantifier": "every content of /dev/disk, fstab, blkid.tab and /proc/self/cgroup, every list of interfaces, every sequence of answers and allocations on Windows, every sequence of calls", "why_tests_cant": "a leak on a rare path shows only after a long time in a running program; a test ends before", "anchors": ["src/library/os/linux/os_linux.cpp: getDiskInfos, parseUUID, read_disk_labels, set_preferred_disks", "src/library/os/linux/network.cpp: getAdapterInfos", "src/library/os/linux/execution_environment.cpp: checkContainerProc", "src/library/os/windows/network.cpp: getAdapterInfos"]}
{"id": "C90", "title": "Only valid licenses count", "statement": "When acquire_license succeeds, what it tells (expiry date, days left, whether it expires, whether it is linked to the machine, proprietary data) is determined by the valid licenses found, in their order; two calls that find the same valid licenses in the same order have the same success and tell the same, however different the files, variables, hint and places; in particular one more source anywhere in the search that carries no valid license (missing, unreadable, forged, expired, for another product or machine) changes nothing but the list of events. Both on Linux and on Windows.", "quantifier": "every two calls with the same caller, product, key, instant and hardware, every set of sources, every position of the additional one", "why_tests_cant": "the sets of refused licenses are unbounded; a test tries a few combinations", "anchors": ["src/library/licensecc.cpp: acquire_license, mergeLicenses", "src/library/LicenseReader.cpp: readLicenses", "src/library/limits/license_verifier.cpp"]}
{"id": "C91", "title": "Conversions between UTF-8, UTF-16 and UTF-32 account for everything", "statement": "Each of the six ConvertUTFxtoUTFy functions, for any source array, any target array and either flag, reads and writes only inside its arrays, returns, has written exactly the encodings of the characters it consumed and nothing beyond, and stops for the reason its result names: conversionOK only at the end of the source; targetExhausted only when the next character does not fit, with the source pointer before it; sourceExhausted only when the source ends inside a character; sourceIllegal only at something that is not a character (or, from UTF-32, after a value above all characters, which does not stop the conversion).", "quantifier": "all source arrays, all target arrays (also too small or empty), strict and lenient", "why_tests_cant": "the arrays and the places where they end are unbounded; a test tries a few strings", "anchors": ["src/library/ini/ConvertUTF.cpp: ConvertUTF8toUTF16, ConvertUTF8toUTF32, ConvertUTF16toUTF8, ConvertUTF16toUTF32, ConvertUTF32toUTF8, ConvertUTF32toUTF16"]}
{"id": "C92", "title": "Text is converted exactly, and back", "statement": "A well-formed text in any of the three encoding forms is converted into the same text in the other forms; into a target that is too small goes the longest beginning of the text that fits, with both pointers after it, so that the conversion can go on from there; converting there and back returns the same units.", "quantifier": "all sequences of Unicode characters, all target sizes, both flags", "why_tests_cant": "there are unboundedly many texts", "anchors": ["src/library/ini/ConvertUTF.cpp"]}
{"id": "C93", "title": "What counts as legal UTF-8", "statement": "isLegalUTF8Sequence accepts every proper encoding of a character and otherwise exactly two families of improper sequences, ED a b and F4 a b c with a below 80 (hex): the expected exactness is refuted, and even strict conversions turn these into one character, swallowing an ASCII byte. The strict flag has no influence on conversions from UTF-8. A strict conversion from UTF-32 to UTF-16 silently leaves out values above all characters and goes on.", "quantifier": "all byte arrays", "why_tests_cant": "every sequence of up to six bytes and every continuation", "anchors": ["src/library/ini/ConvertUTF.cpp: isLegalUTF8, isLegalUTF8Sequence"]}
{"id": "C94", "title": "INI texts in wide characters", "statement": "Loading a UTF-8 text (with or without byte order mark) into wide characters of 2 or 4 bytes never accesses memory outside its arrays and never lacks room; it fails exactly if the text cannot be read to its end as UTF-8 (in the sense of C93) and otherwise yields that text, ended by NULs. Storing any NUL-terminated wide string never accesses memory outside its arrays, never lacks room, and fails exactly if a value above all characters occurs. A text without NULs that is loaded and stored is the same text.", "quantifier": "all data, both widths of wchar_t, all strings, all sizes of the scratch buffer", "why_tests_cant": "the texts are unbounded; room is computed from their lengths", "anchors": ["src/library/ini/SimpleIni.h: SI_ConvertW, Converter::ConvertToStore, LoadData", "src/library/ini/ConvertUTF.cpp"]}
{"id": "C95", "title": "What the inspector prints, character by character", "statement": "On a machine that does not change during the run, standard output of the inspector is exactly: one line per strategy (default, MAC, IP, disk) with the identifier identify_pc gives or NA; three lines naming the virtualization and the cloud found; three lines per network interface (number 0, name, IP address from its last octet to its first in decimal, MAC address in hexadecimal without padding) or the failure code; the processor's vendor, brand, hypervisor flag and model (hexadecimal); the DMI texts; a separator; the good verdicts on the file given as argument; the value of LICENSE_LOCATION if that is looked at; the good verdicts on its files. Standard error is exactly the bad verdicts and the files not found. The identifier cut out of each of the first four lines is accepted on this machine; addresses can be read back from their lines; nothing on standard error about a file means it was opened and all its verdicts are good.", "quantifier": "all machines, environments, arguments, license files and leftover memory", "why_tests_cant": "the text depends on the whole machine and on every license file; the numbers range over all values", "anchors": ["src/inspector/inspector.cpp: main, verifyLicense", "src/library/os/linux/network.cpp: getAdapterInfos", "src/library/os/linux/cpu_info.cpp", "src/library/os/linux/dmi_info.cpp"]}
{"id": "C96", "title": "What the hardware identification depends on", "statement": "The list of disks is a function of: the names in /dev/disk/by-uuid and the inodes and link targets of those that count (not '.', '..' or usb...); if a disk is found there, the names and inodes in /dev/disk/by-label and, only without that directory, /dev/disk/by-partlabel; if none is found, the contents of /run/blkid/blkid.tab and, only without that file, /etc/blkid.tab; and /etc/fstab. The kind of machine is a function of /proc/self/cgroup, /var/run/systemd/container, the first 256 bytes of sys_vendor and modalias in /sys/class/dmi/id, and the processor. A disk identifier depends on the disks only, a network identifier on the network interfaces only; acquire_license consults only what the genuine licenses for this product are locked to; identify_pc depends on the kind of machine and on what the strategy in force names. No other directory or stream is opened. A container is reported exactly if /proc/self/cgroup mentions docker or lxc or systemd's file can be opened. The lines examined are exactly those of the two files: with their line feeds for the first, without for the second, a last line without its end included.", "quantifier": "all pairs of file systems, identifiers, licenses, strategies and values of IDENTIFICATION_STRATEGY", "why_tests_cant": "independence from everything else on the machine quantifies over all pairs of machines", "anchors": ["src/library/os/linux/os_linux.cpp: getDiskInfos", "src/library/os/linux/execution_environment.cpp", "src/library/os/linux/dmi_info.cpp", "src/library/hw_identifier/hw_identifier_facade.cpp", "src/library/licensecc.cpp: identify_pc, acquire_license"]}
{"id": "C97", "title": "However a license reaches the library, it means the same", "statement": "A license text reaches the library in one of five ways: passed in the call as it is, passed base64 encoded, in a file named in the call, in the file beside the program, in a file named by LICENSE_LOCATION. For each of them, with whichever of the places enabled in the build and no license in the others, an issued license gets the verdict that its limits, the clock, the machine and the magic number call for (LICENSE_OK, PRODUCT_EXPIRED, IDENTIFIERS_MISMATCH, LICENSE_CORRUPTED), a document without a section for the feature gives PRODUCT_NOT_LICENSED, and two calls that get the same text in different ways return the same code and tell the caller the same about the license. A license issued for the code that identify_pc returned on the customer's machine is accepted there however it is delivered.", "quantifier": "all license texts and layouts, all ways of delivery, callers, clocks and machines", "why_tests_cant": "two executions along different code paths are compared, for all texts", "anchors": ["src/library/LicenseReader.cpp: readLicenses", "src/library/locate/LocatorFactory.cpp", "src/library/locate/ExternalDefinition.cpp", "src/library/locate/ApplicationFolder.cpp", "src/library/locate/EnvironmentVarLocation.cpp", "src/library/locate/EnvironmentVarData.cpp", "src/library/licensecc.cpp: acquire_license, identify_pc"]}
{"id": "C98", "title": "The life of a license on Windows", "statement": "On Windows an issued license, delivered in any of the five ways (passed as it is or encoded, or in a file that the call or LICENSE_LOCATION names or that lies beside the program), with no license in the other places, gets the verdict that its limits, the clock, the machine and the magic number call for, provided the signature provider accepts the signature of its text; a document without a section for the feature gives PRODUCT_NOT_LICENSED; and a license issued for the code that identify_pc returned on a machine is accepted on this machine, also when its adapters are enumerated in another order, is refused with IDENTIFIERS_MISMATCH on a machine that has nothing of the same, and with PRODUCT_EXPIRED outside its validity. Two calls that get the same text in different ways return the same code and tell the caller the same about the license.", "quantifier": "all licenses, layouts, ways of delivery, machines, clocks and identification strategies", "why_tests_cant": "end to end, for all machines and licenses; the Windows code is not even built by the Linux tests", "anchors": ["src/library/licensecc.cpp: acquire_license, identify_pc", "src/library/os/windows/signature_verifier.cpp: verify_signature", "src/library/os/windows/network.cpp", "src/library/os/windows/os_win.cpp"]}
{"id": "C99", "title": "A license that is found is not hidden by places where nothing is found", "statement": "Of the places that are searched (beside the program, the files of LICENSE_LOCATION, LICENSE_DATA, what the caller passes) one has the license and all the others are files that do not exist, any number of them before and after it; LICENSE_DATA may be set to something that is not a license. Then an issued license gets the verdict its limits, the clock, the machine and the magic number call for; a file that has no section for the feature gives PRODUCT_NOT_LICENSED, not LICENSE_FILE_NOT_FOUND; the code and what the caller is told about the license do not depend on what else was named in vain. The same on Windows. (A text passed by the caller that has no section for the feature can be hidden by a missing file: it is then reported as LICENSE_FILE_NOT_FOUND.)", "quantifier": "all license texts, all lists of missing files, all positions of the license among them, both platforms", "why_tests_cant": "the number, names and order of the other places are unbounded, and which failure is reported depends on all of them", "anchors": ["src/library/LicenseReader.cpp: readLicenses", "src/library/base/EventRegistry.cpp: getLastFailure, turnWarningsIntoErrors", "src/library/locate/LocatorStrategy.cpp", "src/library/locate/EnvironmentVarLocation.cpp", "src/library/locate/ExternalDefinition.cpp", "src/library/licensecc.cpp: acquire_license"]}
{"id": "C100", "title": "identify_pc may be called from several threads", "statement": "Threads call identify_pc in any interleaving, for any machine that may change meanwhile. The execution environment is examined at one instant at the latest before the first call ends, and every call of every thread that asks for it is told that one; the identifier each call gets is the one of the machine at an instant between the start and the end of that call; every thread gets its results in the order of its calls; if the machine does not change, each call gives what it gives alone. A call waits only for another thread that is examining the environment, so nothing deadlocks and all calls can finish; a process only faults if one of its calls would fault alone.", "quantifier": "all numbers of threads, all lists of calls, all schedules, all histories of the machine", "why_tests_cant": "the schedules and the histories of the machine are unbounded and a test runs a few of them", "anchors": ["src/library/licensecc.cpp: identify_pc", "src/library/os/execution_environment.hpp", "src/library/os/linux/execution_environment.cpp", "src/library/hw_identifier/hw_identifier_facade.cpp"]}
{"id": "C101", "title": "The static objects of the library: safe in one thread, and in many after the first use", "statement": "In one thread, for all sequences of verifications, log messages and shutdowns: OpenSSL is only used after its three preparations, each of which happens once; every message goes to an open stream, at most one stream is open, only open streams are closed. With several threads that start after one thread has verified a signature and logged a message (and none of which shuts the log down): no data race, and the same guarantees. From the start of the process with several threads: every message still goes to an open stream if the log file can be opened and nobody shuts the log down; but there are data races on both objects, OpenSSL can be used before it is prepared, it can be prepared twice, two streams can be opened of which one is lost, and if the file cannot be opened a second time (or if somebody shuts the log down) a message goes to a null or closed stream.", "quantifier": "all lists of calls per thread, all schedules, all outcomes of fopen", "why_tests_cant": "races depend on the schedule; a test that runs two threads sees the benign one", "anchors": ["src/library/os/openssl/signature_verifier.cpp: initialize, initialized, verify_signature", "src/library/base/logger.cpp: logFile, _log, _shutdown_log"]}
{"id": "C102", "title": "An INI object that is edited behaves like a plain document", "statement": "After any sequence of SetValue, Delete, Reset, LoadData, SetMultiKey, SetMultiLine, SetSpaces, GetValue, GetAllValues, GetAllKeys, GetAllSections, GetSectionSize and Save on a new CSimpleIniA, with strings of the caller: nothing is undefined behaviour, and every answer, the text of Save included, is that of a plain document (a list of sections, each a list of keys with values and comments; names compared without case; see Spec_IniEdit.v). In particular: a value that is set is the value found, under any spelling of the names; without multi-keys (or with force) it replaces the values of the key and with multi-keys it is added after them; setting or deleting in one place leaves every other section and key alone; after Delete the key, or the whole section, is not there; Reset leaves nothing but the options.", "quantifier": "all sequences of calls, all strings, all options", "why_tests_cant": "the sequences of calls are unbounded and the order, the multi-key mode and the case-insensitive names interact", "anchors": ["src/library/ini/SimpleIni.h: SetValue, AddEntry, Delete, Reset, LoadData, GetValue, GetAllValues, GetAllKeys, GetAllSections, GetSectionSize, Save"]}
{"id": "C103", "title": "The pointers an INI object gives out: how long they may be read and where they may be passed", "statement": "For every INI object reached by any sequence of calls. A pointer that was returned stays readable and unchanged through any number of further calls that are not Delete, Reset or (with multi-keys) a SetValue that forces replacement. Any readable pointer may be passed to SetValue as section, key, value or comment if values are not being replaced, with the effect of a copy. Passing the sections of GetAllSections to Delete one after the other removes all of them. But: on an object built by SetValue, Delete with a key pointer of GetAllKeys that is not the last one reads freed memory; so does a forced SetValue with multi-keys given a key pointer of GetAllKeys, or the pointer of GetValue of the same key. Without multi-keys every SetValue of an existing key allocates and frees nothing; only Reset releases everything.", "quantifier": "all sequences of calls before, all returned pointers, all sequences of calls after", "why_tests_cant": "use after free depends on the history of the object, and a test that reads freed memory usually passes", "anchors": ["src/library/ini/SimpleIni.h: AddEntry, CopyString, DeleteString, Delete, SetValue, GetAllKeys, GetAllSections, GetValue, Reset"]}
{"id": "C104", "title": "Numbers and flags stored in an INI object", "statement": "For every INI object reached by any sequence of calls. Every long set with SetLongValue in decimal is read back by GetLongValue; in hexadecimal the numbers from 0 on are, and every negative one is read as the greatest long. A boolean set by SetBoolValue is read back whatever the default; a text is a boolean whatever the default exactly when it starts with t, y, 1, on or f, n, 0, of in any case. A double of at most 10^54 set by SetDoubleValue is stored as the nearest decimal of six places; every double of at least 10^56 writes past the buffer of 64 characters.", "quantifier": "all longs, all doubles, all texts, all names and their spellings, all sequences of calls before", "why_tests_cant": "there are 2^64 longs and doubles; the failing ones are not those a test picks", "anchors": ["src/library/ini/SimpleIni.h: SetLongValue, GetLongValue, SetBoolValue, GetBoolValue, SetDoubleValue"]}
{"id": "C105", "title": "The text an INI object saves, read again, has the values the object had", "statement": "For every INI object reached by any sequence of calls whose strings can be written on lines (section names, keys and values are one trimmed line, comments start with ; or #) and whose unnamed section, if it has one, was added first: for every section and key, under any spelling, the values in the text that Save writes are those of GetAllValues, in the same order, whatever the options for spaces, multi-keys and multi-line values; the library's own reader finds the value of GetValue; and loading the text into an empty object with the same multi-key mode gives an object with the same values. An unnamed section that was added after another one is lost: its keys are read as keys of the section before it.", "quantifier": "all sequences of calls, all strings that fit on a line, all sections, keys and their spellings", "why_tests_cant": "round trips over all documents, comments, spellings and options cannot be enumerated", "anchors": ["src/library/ini/SimpleIni.h: Save, OutputMultiLineText, LoadData, FindEntry, GetAllValues"]}
{"id": "C106", "title": "Loading a text with values of several lines", "statement": "For every text, with and without SetMultiLine: LoadData ends, reads and writes only inside its copy of the text, and the pointers it keeps are into it. With the option off it is the loader the library uses. With the option on, a value <<<TAG is the lines that follow, joined by LF, up to the first line that is TAG without regard to case; every other line is read as without the option; and the strings kept stay as they were when they were added. The exception is a value with no lines: its entry gets the tag and the whole rest of the text for its value; if the tag is empty too, the loader stops there and reports success.", "quantifier": "all texts, all tags, all line ends", "why_tests_cant": "the loader patches line ends and NULs into the buffer it is reading; the states of the buffer are unbounded", "anchors": ["src/library/ini/SimpleIni.h: LoadMultiLineText, FindEntry, IsMultiLineTag, LoadData, SetMultiLine"]}
{"id": "C107", "title": "Values of several lines survive Save and LoadData", "statement": "For every INI object reached by any sequence of calls whose section names, keys and comments can be written on lines and whose values hold no NUL, no CR and no line END_OF_TEXT and do not, if they fit on one line, start with <<<: with SetMultiLine on, the text that Save writes, read with SetMultiLine on, gives every key the values it had, line ends, empty lines and spaces at the ends included, and so does an empty object that loads it. A value with a line END_OF_TEXT (in any case) is cut before it, and a line key=value after it becomes another key of the section.", "quantifier": "all sequences of calls, all values of any number of lines, all sections and keys", "why_tests_cant": "round trips over values of unbounded length; the failing values are those nobody writes a test for", "anchors": ["src/library/ini/SimpleIni.h: Save, IsMultiLineData, OutputMultiLineText, LoadMultiLineText, LoadData, SetMultiLine"]}
{"id": "C108", "title": "An INI object loaded from a saved text is the saved object", "statement": "For every INI object reached by any sequence of calls whose section names and keys can be written on lines, whose values hold no NUL, no CR and no line END_OF_TEXT (and do not, on one line, start with <<<), and whose comments are lines that start with ; or # with empty lines allowed between them (not in the comment of the file): Save with SetMultiLine on, load the text into an empty object with the same settings, and from then on no sequence of calls - reads, listings, changes, deletions, Save, other loads - can tell the two objects apart; in particular the second Save writes the same text. This needs that no key has several values unless Save and load are in multi-key mode (true if that mode was never on), that an unnamed section comes first, has a key and no comment, and that the comment of the first section is not all there is: without a comment of the file it becomes the comment of the file.", "quantifier": "all sequences of calls before the save and after the load, all strings and comments of any number of lines, both settings of multi-key mode and of spaces", "why_tests_cant": "the equality must hold for every later history of two objects; a test compares a few getters after one load", "anchors": ["src/library/ini/SimpleIni.h: Save, OutputMultiLineText, LoadData, FindEntry, LoadMultiLineText, AddEntry, FindFileComment"]}
{"id": "C109", "title": "License files that change while they are read", "statement": "For every history of the file system and every way the steps of a call (open, seek, each read) fall into it: a reading gives as many bytes as the file had when its size was asked for (4096 at most), read front to back from the one file that was opened; bytes that are not there any more are NUL. A file that is only appended to gives a beginning of it, exactly what it held when its size was asked for. A call of acquire_license with such readings ends as a call does that finds at each access what was there at some instant; so LICENSE_OK still means that a text that was read, torn or not, is a valid license. Replacing a license file by rename is safe: if the path leads all along to a file that holds a valid license, the call accepts it, whichever versions it sees. Rewriting it in place is not: a call can fail although the old and the new text are both valid.", "quantifier": "all histories of all files and paths, all interleavings of the steps of a call with them, short reads and read errors included", "why_tests_cant": "the moment between two system calls cannot be hit by a test, and the interleavings are unbounded", "anchors": ["src/library/base/file_utils.cpp: get_file_contents", "src/library/locate/LocatorStrategy.cpp: retrieve_license_content", "src/library/licensecc.cpp: acquire_license"]}
{"id": "C110", "title": "Doubles read from an INI object", "statement": "GetDoubleValue answers the number of the text found: of any text of at most 63 characters that is blanks, a sign and a number in decimal (with point and exponent) or in hexadecimal, or inf, infinity or nan in any case. The double is the nearest there is, ties to the even one; from half a unit beyond the greatest double on it is infinite. Any other text, and no text, give the default. What SetDoubleValue stored (up to 10^54) is read back within a millionth, with its sign, and exactly if it is a whole number of 64ths or has an absolute value of 2^33 or more.", "quantifier": "all texts, all doubles of absolute value up to 10^54, all histories of the object, all spellings of the names", "why_tests_cant": "rounding is claimed for every text of any digits and every double: 2^64 of them", "anchors": ["src/library/ini/SimpleIni.h: GetDoubleValue", "src/library/ini/SimpleIni.h: SetDoubleValue"]}
{"id": "C111", "title": "A license or INI text that is cut short", "statement": "What the first bytes of a text say, however many they are, is what the text says up to a point: its first sections and entries, of which only the last value may lack its end; no section and no key appears that the whole text has not. So a value looked up in a cut text is a value that the whole text gives to that key, or a beginning of one. A license that was cut short (on a full disk, or because it is longer than the 4096 bytes that are read) is never worth more than the whole: if what is left of it is accepted, then the whole license is valid for the same feature, caller, time and machine, and nothing but the signature entry was touched - if no key occurs twice in it and its signature and what is left of it verify one text only. If a key occurs twice, a cut can bring its first value back.", "quantifier": "all texts, all lengths at which they are cut, all features, machines, clocks and signature schemes", "why_tests_cant": "every length of every text is a case; a test tries a few", "anchors": ["src/library/ini/SimpleIni.h: LoadData", "src/library/ini/SimpleIni.h: FindEntry", "src/library/licensecc.cpp: acquire_license"]}
{"id": "C112", "title": "An INI object saved to a file and loaded from it", "statement": "SaveFile returns SI_FILE if the file cannot be opened and SI_OK in every other case: errors of writing and closing are not reported. Without errors the file holds exactly the text of Save, and loading it gives the values of the object. If the process ends at any moment, or the disk becomes full, the file is as it was before (if it was not opened yet) or holds a beginning of the new text, perhaps an empty one, and each value that is then read from it is a value the saved object has for that key of that section, or a beginning of one. If the system refuses one part of the text and takes a later one, a key can have the value of another although both functions return SI_OK. LoadFile returns SI_OK exactly if the file can be opened and all bytes it is said to have are read, and the object is then what LoadData makes of them.", "quantifier": "all objects reached by calls, all former contents of the file, all ways the C library splits the text, all amounts the system takes of each part, all moments at which the process ends", "why_tests_cant": "the moments of a crash and the ways of splitting are unbounded, and a test cannot easily make a disk full", "anchors": ["src/library/ini/SimpleIni.h: SaveFile", "src/library/ini/SimpleIni.h: LoadFile", "src/library/ini/SimpleIni.h: FileWriter::Write"]}
{"id": "C113", "title": "Byte order marks before INI and license texts", "statement": "An INI object told to read UTF-8 before its first load (later it makes no difference) skips one UTF-8 byte order mark and reads a text without one as it is; what Save writes with a mark is read back with the values of the object. The library reads license texts without that setting: a mark is harmless if the first line is empty or a comment without '='; but if the first line is the header of the only section, the section is lost for every feature, and a license to which an editor added a mark is never accepted: if it is the only one, the answer is PRODUCT_NOT_LICENSED.", "quantifier": "all texts, all objects, all features, all surroundings", "why_tests_cant": "the loss is claimed for every license text and every surrounding", "anchors": ["src/library/ini/SimpleIni.h: SetUnicode", "src/library/ini/SimpleIni.h: LoadData", "src/library/ini/SimpleIni.h: Save", "src/library/licensecc.cpp: acquire_license"]}
{"id": "C114", "title": "Reading fstab from several threads at once", "statement": "getDiskInfos reads the entries of /etc/fstab from an object that the C library shares between threads. Calls made one after the other, or such that no thread asks for an entry while another is in the middle of one, return what each returns alone; every call returns within four of its own steps per entry. If calls overlap there is a data race from the start; even with atomic accesses a call can end with std::out_of_range though alone it succeeds, and can miss the entry that marks a disk, so that identify_pc shows another identifier; but the disks, their order and everything in them except the mark stay right, and a call that returns leads to the same set of identifiers: a license check against the disks has the same answer.", "quantifier": "every number of threads, every /etc/fstab and disks of each, every schedule of single accesses, every content of the shared object", "why_tests_cant": "a test runs a few schedules, and the wrong ones need two threads within a few instructions of each other", "anchors": ["src/library/os/linux/os_linux.cpp: set_preferred_disks", "src/library/os/linux/os_linux.cpp: getDiskInfos", "src/library/hw_identifier/disk_strategy.cpp: generate_disk_pc_id"]}
{"id": "C115", "title": "Texts loaded one over the other", "statement": "LoadData called again on an object that already holds something adds to it. Where keys have one value: a key the text gives a value has its last value in the text afterwards, every other key keeps the value it had; so of several texts loaded in turn the last that gives a key a value decides. With multi-keys the values of the text come after those there were. A section is there afterwards if it was there or the text has it; names are compared without case throughout. Two loads cannot be told, by any later sequence of calls, from one load of all the entries; of two comments of the file the first stays. Loading a text again changes nothing that GetValue returns unless keys have several values: then they are doubled.", "quantifier": "every history of calls before, every text (with SetMultiLine, every text without a value of no lines), any number of texts, all sections (names without line ends) and keys, all later calls", "why_tests_cant": "a test loads a few pairs of texts; which value survives depends on every entry of both and on everything done to the object before", "anchors": ["src/library/ini/SimpleIni.h: LoadData", "src/library/ini/SimpleIni.h: AddEntry", "src/library/ini/SimpleIni.h: CopyString", "src/library/ini/SimpleIni.h: GetValue", "src/library/ini/SimpleIni.h: GetAllValues", "src/library/ini/SimpleIni.h: GetSectionSize"]}
{"id": "C116", "title": "The format of license data by its regular expressions", "statement": "From the text of the two regular expressions of identify_format on: both are well formed, so building them never throws; a search in the order of alternatives of the C++ library's matcher finds a match exactly when the expression has one by ECMAScript's definition, for every expression whose loops go over at least one character; the base64 expression matches exactly the padded base64 texts, the other exactly texts with some [...] on one line; so every text is classified as C45 says. A text that matches takes, on the stack, more calls at once than it has characters, so base64 license data of any length needs a stack of any size. Conversely a stack that grows with the length of the text is enough, for every such expression; for the two of the library 5 calls for each character and 20 more.", "quantifier": "every license text; every regular expression of the syntax used, every text", "why_tests_cant": "a test runs a few texts, short enough for the stack, through one matcher; that the expression means the language for all texts is what it cannot show", "anchors": ["src/library/base/string_utils.cpp: identify_format", "src/library/base/string_utils.cpp: INI_SECTION/B64 patterns", "src/library/locate/EnvironmentVarData.cpp: retrieve_license_content, license_locations"]}
{"id": "C117", "title": "Licenses when calls of OpenSSL fail", "statement": "acquire_license with every way calls of OpenSSL can fail while a license is verified: whatever fails, LICENSE_OK still means that one of the sources has a valid license (signatures having a fixed size, which no signature text in a license has), so the same call with memory for everything succeeds as well. Where a call that verification needs always fails no license is accepted, and each license of the right form is reported as LICENSE_CORRUPTED, none as expired or foreign. Failures met while other licenses are verified do not keep a valid license from being accepted. With memory for everything the call is the one of the other properties. That the call always returns is false: without decoder and source it uses a null pointer, without decoder a signature text of 512 characters overflows.", "quantifier": "every world of files, clock, hardware and environment, every outcome of the OpenSSL calls for each text and signature, all callers' arguments", "why_tests_cant": "a test does not make allocations inside OpenSSL fail one by one under every set of licenses; that no failure opens the lock concerns all of them", "anchors": ["src/library/licensecc.cpp: acquire_license", "src/library/limits/license_verifier.cpp: verify_signature", "src/library/os/openssl/signature_verifier.cpp: verify_signature"]}
{"id": "C118", "title": "What a line of the log says", "statement": "Every call by which the library writes to its log, on Linux and on Windows, with any arguments of the right type: exactly one text is appended, the time, the level, the place in the source, errno if the level is not DEBUG, and then what the format string stands for with these arguments (the C standard's meaning of %s, %d and %x with flags and widths), and a line end. Data are never taken for formats: the value of the variable IDENTIFICATION_STRATEGY is written as it is, percent signs included. It holds for all calls but four: os_win.cpp 68 has one argument too few, signature_verifier.cpp 36 for Windows an unknown conversion, and os_linux.cpp 175 and 234 print a 64 bit inode number as an int; for these the behaviour is undefined whatever the arguments. Built for release LOG_DEBUG writes nothing. That one call writes one line is false: a value with a line end in it forges a line.", "quantifier": "every call of the logging macros, all arguments, errno texts, times, directories, log files, the builds for release and for debugging", "why_tests_cant": "tests do not look at the log; that no data reach vfprintf as a format, and which calls are undefined, concern all arguments", "anchors": ["src/library/base/logger.h: LOG_DEBUG, LOG_WARN, LOG_ERROR, clean_errno", "src/library/base/logger.cpp: _log", "src/library/hw_identifier/hw_identifier_facade.cpp: generate_user_pc_signature", "src/library/os/linux/os_linux.cpp: read_disk_labels, getDiskInfos_dev, set_preferred_disks", "src/library/os/windows/os_win.cpp: getDiskInfos"]}
{"id": "C119", "title": "Licenses on Windows when calls of the cryptography provider fail", "statement": "acquire_license on Windows (1024 bit key, adapters listed, source names below 260 characters) with every way the calls of the provider and the heap can fail, differently for each signature that is verified: whatever fails, LICENSE_OK still means that one of the sources has a license that is valid with a provider that does not fail, so the same call without failures, if it returns, succeeds as well; unlike with OpenSSL this needs no condition on the signature scheme. Where a call that verification needs always fails no license is accepted and each license of the right form is reported as LICENSE_CORRUPTED, none as expired or foreign. Failures met while other licenses are verified do not keep a valid license from being accepted if the call returns. That it always returns is false: when the hash provider cannot be opened for one license an exception leaves the library, although another license is good.", "quantifier": "every content of the sources, environment, caller, hint, clock and machine, and every outcome of the provider's calls for each text and signature", "why_tests_cant": "a test does not make single calls of the Windows provider fail under every set of licenses; that no failure opens the lock concerns all of them", "anchors": ["src/library/licensecc.cpp: acquire_license", "src/library/limits/license_verifier.cpp: verify_signature", "src/library/os/windows/signature_verifier.cpp: verify_signature, verifyHash, hashData"]}
{"id": "C120", "title": "The alternative identifier of a disk (parse_disk_id)", "statement": "parse_disk_id, the alternative to parseUUID that os_linux.cpp keeps for disks named as in /dev/disk/by-id, puts into byte k of a buffer of n bytes the exclusive or of the characters of the name at the positions that leave remainder k modulo n; it stays in the buffer, needs no scratch memory (so names that overrun the one of parseUUID do no harm) and ends exactly for names of fewer than 2^32 characters; with a buffer of no bytes it divides by zero unless the name is empty. Names that fit the buffer are kept as they are, so different ones have different identifiers, and one changed character always shows; longer names can share an identifier: characters a multiple of n apart may change places, and a part of n characters that comes twice in a row does not count.", "quantifier": "every name without NUL, every size of the buffer", "why_tests_cant": "all names of all lengths; a loop that never ends and collisions are not found by samples", "anchors": ["src/library/os/linux/os_linux.cpp:parse_disk_id"]}
