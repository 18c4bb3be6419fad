{"id": "C01", "title": "squashSpaces yields the words joined by single spaces", "statement": "For every string containing a non-space character, squashSpaces returns exactly its maximal runs of non-space characters, in order, joined by one space (so: no leading, trailing or doubled space, nothing else changed).", "quantifier": "all byte strings with at least one non-space character", "why_tests_cant": "the set of strings is infinite; a unit test samples a few literals", "anchors": ["src/Split.cxx: squashSpaces"]}
{"id": "C02", "title": "squashSpaces is defined on every string", "statement": "squashSpaces returns normally for every input string, including the empty string and strings of spaces only.", "quantifier": "all byte strings", "why_tests_cant": "the failing inputs are undefined behaviour (front()/back() of an empty string), which a passing test does not exclude", "anchors": ["src/Split.cxx: squashSpaces (lines 48-49)"]}
{"id": "C03", "title": "split cuts the squashed input at the delimiters and nowhere else", "statement": "For every non-blank string and delimiter set, the list returned by split(str, delims) is the sequence of maximal delimiter-free fields of the squashed string, in order, where only a final empty field is dropped: no token contains a delimiter and putting the delimiters back between the tokens restores the squashed string.", "quantifier": "all strings and all delimiter sets", "why_tests_cant": "the set of strings is infinite; a unit test samples a few literals", "anchors": ["src/Split.cxx: split"]}
{"id": "C04", "title": "split with no_empty removes exactly the empty tokens", "statement": "split(str, delims, true) is split(str, delims, false) with the empty tokens deleted and the order kept.", "quantifier": "all strings and delimiter sets", "why_tests_cant": "the set of strings is infinite; a unit test samples a few literals", "anchors": ["src/Split.cxx: split"]}
{"id": "C05", "title": "splitVec agrees with split", "statement": "splitVec returns the same tokens in the same order as split for the same arguments.", "quantifier": "all strings, delimiter sets and flag values", "why_tests_cant": "the set of strings is infinite; a unit test samples a few literals", "anchors": ["src/Split.cxx: splitVec"]}
{"id": "C06", "title": "placeholders are replaced by position, everything else is copied", "statement": "After any number of addX calls on a Format, str() is the template in which every %k (k a decimal number, any number of occurrences) with k < number of values added is replaced by the text of the k-th added value, every other %k is shown as %k, %% is shown as %, and every other character is copied unchanged.", "quantifier": "all template strings and all sequences of added values", "why_tests_cant": "templates and value sequences are unbounded; interactions (adjacent markers, repeated markers, markers in values) cannot be enumerated", "anchors": ["src/Format.cxx: Format::Format, initialScan, insertField, str"]}
{"id": "C07", "title": "doubling the percent signs protects any text", "statement": "For every text, the Format whose template is that text with each % doubled yields that text back from str().", "quantifier": "all byte strings", "why_tests_cant": "the set of strings is infinite; a unit test samples a few literals", "anchors": ["src/Format.cxx: initialScan, str"]}
{"id": "C08", "title": "inserted values are never re-interpreted", "statement": "A value containing text that looks like a placeholder (e.g. %1) appears verbatim in the result; later addX calls do not alter it.", "quantifier": "all templates, all value sequences whose texts are arbitrary", "why_tests_cant": "depends on the interaction of arbitrary values with arbitrary later calls", "anchors": ["src/Format.cxx: insertField, str"]}
{"id": "C09", "title": "reset makes a Format as good as new", "statement": "After any history of adds and resets, reset() followed by adds gives the same str() as a freshly constructed Format with the same template and the same adds.", "quantifier": "all templates, all histories of calls", "why_tests_cant": "quantifies over arbitrary call histories", "anchors": ["src/Format.cxx: Format::reset, initialScan"]}
{"id": "C10", "title": "str(true) throws BadFormat exactly when a placeholder is unfilled", "statement": "For every reachable Format, str(true) throws BadFormat if and only if some placeholder of the template has not received a value, and otherwise returns the same string as str(false); neither modifies the object.", "quantifier": "all reachable Format states", "why_tests_cant": "needs every template and history", "anchors": ["src/Format.cxx: Format::str"]}
{"id": "C11", "title": "too many values are reported", "statement": "Supplying more values than the template has placeholders raises BadFormat (documented in Format.hxx: 'or that too many values were supplied').", "quantifier": "all templates and value sequences", "why_tests_cant": "absence of a check for any surplus cannot be shown by a sample", "anchors": ["include/Format.hxx: class BadFormat (lines 464-483)", "src/Format.cxx: insertField"]}
{"id": "C12", "title": "distinct placeholder numbers denote distinct values", "statement": "Two placeholders whose numbers differ are never filled by the same addX call, whatever the size of the numbers.", "quantifier": "all pairs of placeholder numbers", "why_tests_cant": "failure needs a ten-digit placeholder number (32-bit wrap)", "anchors": ["src/Format.cxx: initialScan line 105"]}
{"id": "C13", "title": "addI prints the integer in decimal, right-justified", "statement": "addI(v, w, 0, fill) inserts the shortest decimal numeral of v, preceded by as many fill characters (space if none given) as are needed to reach width w, and nothing else; the numeral reads back as v.", "quantifier": "all 32-bit ints, widths and fill characters", "why_tests_cant": "2^32 values times widths times fills", "anchors": ["src/Format.cxx: Format::addI"]}
{"id": "C14", "title": "addI separator groups digits by three", "statement": "addI(v, w, sep) inserts the decimal numeral with sep after every third digit counted from the right and never next to the sign or at either end; deleting sep restores the numeral.", "quantifier": "all 32-bit ints and separator characters", "why_tests_cant": "the failing inputs (negative, digit count multiple of three) are a thin slice of the domain", "anchors": ["src/Format.cxx: Format::addI lines 155-177"]}
{"id": "C15", "title": "addU hexadecimal output is exact", "statement": "addU(v,'x'|'X'|'h'|'H', w) inserts 0x followed by the hexadecimal numeral of v, zero-padded to at least w digits, upper-case digits for X/H; the digits read back as v.", "quantifier": "all 64-bit values and widths", "why_tests_cant": "2^64 values", "anchors": ["src/Format.cxx: Format::addU, toHex"]}
{"id": "C16", "title": "addU octal output is exact", "statement": "addU(v,'o', w) inserts the octal numeral of v with one leading 0 (just 0 for zero), zero-padded to total width w; it reads back as v.", "quantifier": "all 64-bit values and widths", "why_tests_cant": "2^64 values", "anchors": ["src/Format.cxx: Format::addU, toOct"]}
{"id": "C17", "title": "addU decimal output is exact", "statement": "addU(v, fmt, w) for any other fmt inserts the decimal numeral of v, space-padded on the left to width w.", "quantifier": "all 64-bit values, all other format characters, all widths", "why_tests_cant": "2^64 values", "anchors": ["src/Format.cxx: Format::addU"]}
{"id": "C18", "title": "addU separators stand between digits only", "statement": "addU with a separator places it after every group_count digits counted from the right, only between two digits, never at an end, inside the 0x prefix, or in padding; deleting it restores the unseparated field.", "quantifier": "all values, formats, widths, separators and group sizes", "why_tests_cant": "failures depend on combinations of width, radix and group size", "anchors": ["src/Format.cxx: Format::addU lines 221-249"]}
{"id": "C19", "title": "addS justifies without losing characters", "statement": "addS(s, w) inserts s alone if |w| <= |s|, otherwise s padded with spaces to exactly |w| characters, on the left for w>0 and on the right for w<0.", "quantifier": "all strings and widths", "why_tests_cant": "the set of strings is infinite; a unit test samples a few literals", "anchors": ["src/Format.cxx: Format::addS"]}
{"id": "C20", "title": "addC and addB insert one fixed character", "statement": "addC(c) inserts exactly the character c; addB inserts T for true and F for false.", "quantifier": "all characters and booleans and all format states", "why_tests_cant": "must hold in every format state", "anchors": ["src/Format.cxx: Format::addC, addB"]}
{"id": "C21", "title": "Format_ext wrappers format like Format", "statement": "Every addX of Format_ext<T> inserts exactly what the same call on Format inserts.", "quantifier": "all argument values", "why_tests_cant": "failure needs a value above 2^32-1 passed to addU, or a fill character", "anchors": ["include/Format.hxx: class Format_ext"]}
{"id": "C22", "title": "addF renders NaN and infinity as padded text", "statement": "addF of a NaN inserts nan and of an infinity inserts inf, left-justified and space-padded to the width (significant_digits+4 if width is 0), for every format code.", "quantifier": "all NaNs and infinities, all format codes, widths and digit counts", "why_tests_cant": "unbounded widths and digit counts", "anchors": ["src/Format.cxx: Format::addF lines 399-410, pad"]}
{"id": "C23", "title": "addF 'e' returns for every finite value", "statement": "addF(v,'e',...) terminates for every finite double v.", "quantifier": "all finite doubles and digit counts", "why_tests_cant": "non-termination cannot be observed by a finite test, and the failing values are extreme", "anchors": ["src/Format.cxx: log1k, addF"]}
{"id": "C24", "title": "addF 'e' prints engineering notation", "statement": "For a non-zero value addF 'e' prints an optional minus sign, an integer part between 1 and 999, and an exponent that is a multiple of three.", "quantifier": "all finite non-zero doubles and digit counts", "why_tests_cant": "2^64 doubles; boundary cases appear only where rounding meets a power of ten", "anchors": ["src/Format.cxx: log1k, fractionate, addF"]}
{"id": "C25", "title": "addF 'e' prints the requested number of significant digits", "statement": "In 'e' format the number of integer digits plus fraction digits printed equals significant_digits.", "quantifier": "all finite non-zero doubles and digit counts", "why_tests_cant": "2^64 doubles", "anchors": ["src/Format.cxx: getIntPartWidth, fractionate, addF"]}
{"id": "C26", "title": "addF 'e' of zero", "statement": "addF(0.0 or -0.0,'e',w,d) inserts 0, the radix separator, max(1,d-1) zeros and e0, padded to the field width.", "quantifier": "all digit counts and widths", "why_tests_cant": "unbounded parameters", "anchors": ["src/Format.cxx: addF lines 438-442"]}
{"id": "C27", "title": "addF 'e' is accurate", "statement": "The number denoted by the text printed in 'e' format differs from v by at most a relative 5*10^-(significant_digits).", "quantifier": "all finite doubles in the working range and digit counts", "why_tests_cant": "2^64 doubles", "anchors": ["src/Format.cxx: log1k, fractionate, addF", "test/FormatTest.cxx: badDiff"]}
{"id": "C28", "title": "addF pads to the field width", "statement": "The text inserted by addF has at least the requested width, for every format code.", "quantifier": "all doubles, widths, digit counts, format codes", "why_tests_cant": "unbounded parameters", "anchors": ["src/Format.cxx: addF, pad"]}
{"id": "C29", "title": "addF 'f' prints the correctly rounded fixed-point numeral", "statement": "addF(v,'f',w,d) inserts the decimal numeral with d digits after the point nearest to v, left-justified in the width.", "quantifier": "all finite doubles and digit counts", "why_tests_cant": "2^64 doubles", "anchors": ["src/Format.cxx: addF lines 413-417"]}
{"id": "C30", "title": "addF 's' prints normalized scientific notation", "statement": "addF(v,'s',w,d) inserts a mantissa with one non-zero integer digit (for v != 0) and d fraction digits and a signed exponent of at least two digits, denoting the value nearest to v with that many digits.", "quantifier": "all finite doubles and digit counts", "why_tests_cant": "2^64 doubles", "anchors": ["src/Format.cxx: addF lines 418-422"]}
{"id": "C31", "title": "addF rejects or reports unknown format codes", "statement": "addF with a format code other than f, s, g, e inserts some rendering of the value.", "quantifier": "all other characters and all values", "why_tests_cant": "must cover every code", "anchors": ["src/Format.cxx: addF switch"]}
{"id": "C32", "title": "the radix separator setting is honoured", "statement": "When Format::separator is set to c, 'e' format output uses c as the radix character.", "quantifier": "all separator characters and values", "why_tests_cant": "must hold for every value", "anchors": ["src/Format.cxx: addF lines 440, 470", "include/Format.hxx: separator"]}
{"id": "C33", "title": "a well-formed command line is understood exactly", "statement": "For every set of registered options and every command line that is a sequence of positional words, presence options, and options followed by an acceptable value, parse returns true, each target variable ends with the value given last (its default if not given), each vector target has the given values appended in order, each presence flag given is true, and nothing else is changed.", "quantifier": "all option sets and all well-formed token sequences", "why_tests_cant": "unbounded combinations of options, orders and values", "anchors": ["src/Options.cxx: Options::parse, findOpt, isSwitch", "include/Options.hxx: Opt, OptVec, OptPresent"]}
{"id": "C34", "title": "positional arguments are kept in order", "statement": "After a successful parse the positional arguments are exactly the tokens that are neither options nor option values, in their original order, appended to those of earlier parses.", "quantifier": "all token sequences", "why_tests_cant": "unbounded sequences", "anchors": ["src/Options.cxx: parse, getPosArgs, getPosArg"]}
{"id": "C35", "title": "isPresent tells whether the option was on the line", "statement": "After a successful parse, isPresent(long) and isPresent(short) are both true iff the option occurred on some parsed line under either name.", "quantifier": "all option sets and token sequences", "why_tests_cant": "needs every line shape, including an option as the last token", "anchors": ["src/Options.cxx: isPresent, parse"]}
{"id": "C36", "title": "unknown options make parse fail", "statement": "If a token in option position names no registered option, parse returns false, reports the token on stderr with the help text, and ignores the remaining tokens.", "quantifier": "all option sets and lines", "why_tests_cant": "unbounded", "anchors": ["src/Options.cxx: parse"]}
{"id": "C37", "title": "a rejected value makes parse fail and leaves the target alone", "statement": "If the text after an option cannot be converted or fails its test function, parse returns false and the target variable keeps its previous value.", "quantifier": "all option sets, types, tests and texts", "why_tests_cant": "unbounded texts and tests", "anchors": ["include/Options.hxx: Opt::setVal, OptVec::setVal, setValBase"]}
{"id": "C38", "title": "help stops the parse", "statement": "--help or a short option starting with h in option position prints the help and makes parse return false without processing later tokens.", "quantifier": "all option sets and lines", "why_tests_cant": "unbounded", "anchors": ["src/Options.cxx: parse lines 216-226"]}
{"id": "C39", "title": "defaults are installed when the option is added", "statement": "After add with a default the target holds the default, after add without one it holds the type's zero value, after addP it is false; parse calls that do not mention an option leave its target and presence unchanged.", "quantifier": "all option sets and later lines", "why_tests_cant": "unbounded later histories", "anchors": ["include/Options.hxx: Opt, OptPresent constructors", "src/Options.cxx: parse"]}
{"id": "C40", "title": "vector options collect every value", "statement": "Each occurrence of a vector option with an acceptable value appends exactly that value at the end of the vector.", "quantifier": "all lines and starting vectors", "why_tests_cant": "unbounded", "anchors": ["include/Options.hxx: OptVec::setVal"]}
{"id": "C41", "title": "negative numbers can be given to numeric options", "statement": "A token such as -3 following an option of signed numeric type is taken as its value, for scalar and vector options.", "quantifier": "all negative numerals and all signed options", "why_tests_cant": "needs all options kinds and values", "anchors": ["src/Options.cxx: isSwitch, parse", "include/Options.hxx: OptVec constructor"]}
{"id": "C42", "title": "quoted tokens survive string parsing", "statement": "For every list of tokens without double quotes, parse(string) of the tokens each wrapped in double quotes and separated by whitespace behaves exactly as parse(list) of the tokens.", "quantifier": "all token lists", "why_tests_cant": "unbounded strings", "anchors": ["src/Options.cxx: buildTokenList(const std::string&)"]}
{"id": "C43", "title": "unquoted tokens are split at whitespace", "statement": "For every list of non-empty tokens free of whitespace and double quotes, parse(string) of the tokens separated (and optionally surrounded) by any whitespace behaves exactly as parse(list).", "quantifier": "all token lists and whitespace runs", "why_tests_cant": "unbounded strings", "anchors": ["src/Options.cxx: buildTokenList(const std::string&)"]}
{"id": "C44", "title": "argc/argv parsing skips only the program name", "statement": "parse(argc, argv) behaves as parse of the list argv[1..argc-1].", "quantifier": "all argv vectors", "why_tests_cant": "unbounded", "anchors": ["src/Options.cxx: buildTokenList(int,char**), parse(int,char**)"]}
{"id": "C45", "title": "integers round-trip through Format and Options", "statement": "For every int v, parsing the option value text produced by Format addI(v) stores v; in general a stored integer is the numeric value of the text's leading numeral and lies in the type's range.", "quantifier": "all integers of each type and all texts", "why_tests_cant": "2^64 values and unbounded texts", "anchors": ["include/Options.hxx: setValBase", "src/Format.cxx: addI"]}
{"id": "C46", "title": "boolean option values", "statement": "A bool option accepts exactly: texts starting with t/T (true), texts starting with f/F (false), and texts starting with an int numeral (true iff non-zero); the empty text means false.", "quantifier": "all texts", "why_tests_cant": "unbounded strings", "anchors": ["include/Options.hxx: setValBase(bool&)"]}
{"id": "C47", "title": "getPosArg never reads out of range", "statement": "getPosArg(i) returns the i-th positional argument for 0 <= i < numPosArgs() and the empty string for every other i.", "quantifier": "all indices and states", "why_tests_cant": "the failing index is undefined behaviour, which a test may not notice", "anchors": ["src/Options.cxx: getPosArg"]}
{"id": "C48", "title": "successive parses are independent", "statement": "The outcome of a parse depends only on the registered options, the variables and the positional arguments so far, not on how earlier parse calls ended.", "quantifier": "all histories of parse calls", "why_tests_cant": "quantifies over histories", "anchors": ["src/Options.cxx: parse, isSwitch (waiting_for_signed)"]}
{"id": "C49", "title": "key=value lists set the same options as a command line", "statement": "parseKeyValue(\"k1=v1,...,kn=vn\") behaves as parse of --k1 v1 ... --kn vn.", "quantifier": "all keys and values free of separators", "why_tests_cant": "unbounded strings; failures need values with leading dashes, empty values or embedded '='", "anchors": ["src/Options.cxx: parseKeyValue"]}
{"id": "C50", "title": "only accepted values reach the program", "statement": "After a successful parse from the initial state, every value stored by a scalar or vector option on that line satisfies the option's test function.", "quantifier": "all tests and lines", "why_tests_cant": "unbounded", "anchors": ["include/Options.hxx: Opt::setVal, OptVec::setVal"]}
{"id": "C51", "title": "help lists every option once, sorted", "statement": "printHelp prints the info lines in order, then one line for each registered long name in ascending byte order, with its long name, short name and description.", "quantifier": "all option sets", "why_tests_cant": "unbounded sets", "anchors": ["src/Options.cxx: printHelp", "include/Options.hxx: OptBase::printHelp"]}
{"id": "C52", "title": "parse touches only registered targets", "statement": "No parse call, successful or not, changes a variable that is not the target of a registered option, nor removes a registered option.", "quantifier": "all option sets, lines and variables", "why_tests_cant": "frame property over all states", "anchors": ["src/Options.cxx: parse"]}
{"id": "C53", "title": "registering a name again replaces it", "statement": "After two registrations with the same long (short) name, the second is the one found by that name, and other names are unaffected.", "quantifier": "all registration sequences", "why_tests_cant": "quantifies over histories", "anchors": ["src/Options.cxx: registerOpt, findOpt"]}
{"id": "C54", "title": "each subscriber receives every message once, in order", "statement": "For every history of calls, the messages a subscriber obtains from get, in order, followed by those still waiting, are exactly the messages put since it subscribed (excluding those it sent itself with its subscription, and those discarded by clear), in put order.", "quantifier": "all histories and numbers of subscribers", "why_tests_cant": "quantifies over all histories", "anchors": ["include/MailBox.hxx: subscribe, put, get, clear"]}
{"id": "C55", "title": "put with a subscription does not echo to the sender", "statement": "put(msg, subs) appends msg to every subscriber's queue except the sender's; put(msg) appends to all.", "quantifier": "all mailbox states", "why_tests_cant": "all states", "anchors": ["include/MailBox.hxx: put"]}
{"id": "C56", "title": "get returns nothing exactly when nothing is waiting", "statement": "With messages being non-null pointers, get returns nullptr iff readyCount is zero, and otherwise the oldest waiting message, removing just that one.", "quantifier": "all mailbox states", "why_tests_cant": "all states", "anchors": ["include/MailBox.hxx: get, readyCount"]}
{"id": "C57", "title": "subscribers are isolated", "statement": "get, clear, readyCount and unsubscribe by one subscriber never change what any other subscriber will receive.", "quantifier": "all states and other subscribers", "why_tests_cant": "all histories", "anchors": ["include/MailBox.hxx: get, clear, unsubscribe"]}
{"id": "C58", "title": "counts are accurate", "statement": "readyCount is the number of gets that would succeed, subscriberCount the number of live subscriptions, minReadyCount the minimum of the ready counts (all ones when there is no subscriber).", "quantifier": "all states", "why_tests_cant": "all states", "anchors": ["include/MailBox.hxx: readyCount, minReadyCount, subscriberCount"]}
{"id": "C59", "title": "a subscription for another mailbox is refused", "statement": "get, put, clear and readyCount with a subscription obtained from a different mailbox throw SubscriptionMismatch and change nothing.", "quantifier": "all pairs of mailboxes and states", "why_tests_cant": "all states", "anchors": ["include/MailBox.hxx: SubscriptionCl::getIndex"]}
{"id": "C60", "title": "subscription identities are never reused", "statement": "Every subscribe on a mailbox returns an identity different from all earlier ones, also after unsubscriptions.", "quantifier": "all histories with fewer than 2^31 subscriptions", "why_tests_cant": "quantifies over histories; the overflow needs 2^31 calls", "anchors": ["include/MailBox.hxx: subscribe"]}
{"id": "C61", "title": "messages are released when the last reader is done", "statement": "The mailbox holds a reference to a message iff some live subscriber has it waiting; after every subscriber has got or cleared it or unsubscribed none remains.", "quantifier": "all histories", "why_tests_cant": "quantifies over histories", "anchors": ["include/MailBox.hxx: get, clear, unsubscribe, ~MailBox"]}
{"id": "C62", "title": "mailbox operations are atomic under any thread schedule", "statement": "Every interleaving of concurrent operations by any number of threads has the same results and final contents as executing the operations one at a time in some order consistent with each thread's program order.", "quantifier": "all schedules, any number of threads", "why_tests_cant": "schedules cannot be enumerated", "anchors": ["include/MailBox.hxx: lock_guard in every method"]}
{"id": "C63", "title": "dropping a subscription is always safe", "statement": "Destroying a Subscription removes its queue and never terminates the program or throws, also if unsubscribe(id) was called before.", "quantifier": "all histories", "why_tests_cant": "failure is std::terminate in a destructor on a rare history", "anchors": ["include/MailBox.hxx: ~SubscriptionCl, unsubscribe"]}
{"id": "C64", "title": "nobody passes the barrier early", "statement": "With exactly num_waiters threads calling wait repeatedly and no timeout expiring, no thread returns from its k-th wait before every thread has called its k-th wait.", "quantifier": "all thread counts, round counts and schedules", "why_tests_cant": "schedules cannot be enumerated", "anchors": ["src/Barrier.cxx: Barrier::wait"]}
{"id": "C65", "title": "everybody passes the barrier eventually", "statement": "With exactly num_waiters threads each calling wait the same number of times and no timeout expiring, no reachable state is deadlocked, and every schedule that keeps running threads finishes all waits.", "quantifier": "all thread counts, round counts and schedules", "why_tests_cant": "schedules cannot be enumerated", "anchors": ["src/Barrier.cxx: Barrier::wait"]}
{"id": "C66", "title": "wait has no data race", "statement": "With exactly num_waiters threads and no timeout, the unlocked read of the generation counter is never concurrent with a write to it.", "quantifier": "all schedules", "why_tests_cant": "data races are not observable by tests", "anchors": ["src/Barrier.cxx: Barrier::wait line 58"]}
{"id": "C67", "title": "at most one Timeout per barrier", "statement": "Over the life of a barrier, at most one wait call throws Timeout, and Corrupt is thrown only after a Timeout was thrown.", "quantifier": "all thread counts and schedules with timeouts", "why_tests_cant": "schedules cannot be enumerated", "anchors": ["src/Barrier.cxx: Barrier::wait lines 81-96"]}
{"id": "C68", "title": "a timeout is reported to every waiter", "statement": "When one waiter times out, every other thread then waiting gets a Corrupt exception.", "quantifier": "all schedules with timeouts", "why_tests_cant": "schedules cannot be enumerated", "anchors": ["include/Barrier.hxx: lines 76-80, 186-194", "src/Barrier.cxx: Barrier::wait"]}
{"id": "C69", "title": "surplus threads wait for the next generation", "statement": "If more than num_waiters threads call wait, exactly num_waiters of them pass and the others wait until num_waiters more calls have been made.", "quantifier": "all thread counts and schedules", "why_tests_cant": "the failing schedule is a narrow race", "anchors": ["include/Barrier.hxx: lines 105-111", "src/Barrier.cxx: Barrier::wait"]}
{"id": "C70", "title": "generation counter wrap-around is harmless", "statement": "The barrier keeps working (properties C64, C65) when its 32-bit generation counter wraps around.", "quantifier": "all starting counter values", "why_tests_cant": "needs 2^32 rounds", "anchors": ["src/Barrier.cxx: barrier_count++"]}
{"id": "C71", "title": "timeout arguments mean what they say", "statement": "wait(0) waits 86,400,000,000 ms; wait(ms) for any other ms waits ms milliseconds.", "quantifier": "all 64-bit timeout values", "why_tests_cant": "values above 2^63-1", "anchors": ["src/Barrier.cxx: wait(unsigned long), wait(duration)"]}
{"id": "C72", "title": "get follows the path through the tree", "statement": "PropertyTree::get(v, \"a:b:c\") reads the value stored under key c of the dictionary under b of the dictionary under a.", "quantifier": "all trees and paths", "why_tests_cant": "unbounded trees", "anchors": ["src/PropertyTree.cxx: getProp, getPropRecursive", "include/PropertyTree.hxx: PropertyTree::get"]}
{"id": "C73", "title": "get without throw_exception does not throw", "statement": "PropertyTree::get(v, path, false) returns false rather than throwing when the path is missing.", "quantifier": "all trees and paths", "why_tests_cant": "unbounded", "anchors": ["include/PropertyTree.hxx: PropertyTree::get lines 130-140"]}
{"id": "C74", "title": "loading YAML keeps every mapping entry reachable", "statement": "After readFile, the tree has, for every path of mapping keys in the document leading to a scalar, a node under the same keys holding that scalar's text (the last one for duplicate keys).", "quantifier": "all YAML documents made of mappings and scalars", "why_tests_cant": "unbounded documents", "anchors": ["src/PropertyTreeYAML.cxx: fillRecurse"]}
{"id": "C75", "title": "loading YAML keeps sequences under their key", "statement": "A sequence of scalars stored under a key is available as the list of the node under that key.", "quantifier": "all documents", "why_tests_cant": "unbounded documents", "anchors": ["src/PropertyTreeYAML.cxx: fillRecurse lines 88-96"]}
{"id": "C76", "title": "getKeys and getList enumerate a node completely", "statement": "getKeys returns every dictionary key of the node exactly once in ascending byte order, getList every list entry in order.", "quantifier": "all loaded trees", "why_tests_cant": "unbounded trees", "anchors": ["src/PropertyTree.cxx: getKeys, getList"]}
{"id": "C77", "title": "getPathName returns the path that leads to the node", "statement": "For every node reached by a key path, getPathName gives the keys joined by ':'.", "quantifier": "all loaded trees and nodes", "why_tests_cant": "unbounded trees", "anchors": ["src/PropertyTree.cxx: getPathName"]}
{"id": "C78", "title": "dump shows every stored value", "statement": "The text produced by dump contains every terminal value and every key of the tree.", "quantifier": "all trees", "why_tests_cant": "unbounded trees", "anchors": ["src/PropertyTree.cxx: PropNode::dump"]}
{"id": "C79", "title": "exception messages carry their data", "statement": "what() of Barrier::Timeout, Barrier::Corrupt, MissingSubscriber, SubscriptionMismatch, BadConversion, PropertyNotFound, FileNotFound, BadPropertyType contains every datum passed to its constructor, whatever characters it contains.", "quantifier": "all names, paths, values", "why_tests_cant": "unbounded strings; names may contain placeholder text", "anchors": ["include/Barrier.hxx: Timeout, Corrupt", "include/MailBox.hxx: exceptions", "src/PropertyTree.cxx: exceptions"]}
{"id": "C80", "title": "mailbox calls never deadlock", "statement": "In every state any number of threads can reach through mailbox calls, all pending calls can still complete without any new call being made.", "quantifier": "all schedules, any number of threads and mailboxes", "why_tests_cant": "deadlocks depend on the schedule", "anchors": ["include/MailBox.hxx: lock_guard in every method"]}
{"id": "C81", "title": "a wait with a timeout always ends", "statement": "Whatever the number of threads and whichever timeouts expire: while some thread is inside wait, some thread can make progress (at the latest because a timeout expires), and if each of N threads makes at most R calls the whole execution is a bounded number of steps (spurious wakeups aside), so every call ends.", "quantifier": "all thread counts, call counts and schedules with timeouts", "why_tests_cant": "schedules cannot be enumerated", "anchors": ["src/Barrier.cxx: Barrier::wait"]}
{"id": "C82", "title": "a Timeout means the round was not completed", "statement": "When a wait call gives up with Timeout, no round was completed between its entry and its giving up (up to wrap-around of the 32-bit generation counter).", "quantifier": "all thread counts and schedules with timeouts", "why_tests_cant": "the narrow race between a timeout and the last arrival", "anchors": ["src/Barrier.cxx: Barrier::wait lines 74-96"]}
{"id": "C83", "title": "readFile reports unreadable input only with the documented exceptions", "statement": "Whatever the file holds, PropertyTree::readFile (and the constructor that takes a file name) either loads it or throws FileNotFound or BadSyntax naming the file.", "quantifier": "all file contents and all trees read into", "why_tests_cant": "the space of YAML documents is infinite", "anchors": ["src/PropertyTreeYAML.cxx: PropertyTreeYAML::readFile, fillRecurse"]}
{"id": "C84", "title": "reading several files accumulates", "statement": "Reading files one after another acts as reading one document with their top-level entries in order: a later entry for the same path replaces the earlier one, and every other entry stays.", "quantifier": "all lists of files whose documents are nested mappings of scalars", "why_tests_cant": "any number of files of any depth", "anchors": ["src/PropertyTreeYAML.cxx: PropertyTreeYAML::readFile, fillRecurse"]}
{"id": "C85", "title": "get<std::string> returns the whole value", "statement": "For every node whose value is a given text, get into a std::string yields exactly that text.", "quantifier": "all value texts", "why_tests_cant": "infinitely many texts, including blanks", "anchors": ["include/PropertyTree.hxx: PropNode::get"]}
{"id": "C86", "title": "a failed readFile leaves the tree unchanged", "statement": "When readFile throws, the tree is as it was before the call.", "quantifier": "all trees and all documents", "why_tests_cant": "every failure point in every document", "anchors": ["src/PropertyTreeYAML.cxx: PropertyTreeYAML::readFile, fillRecurse"]}
{"id": "C87", "title": "writeFile stores the tree", "statement": "After writeFile(name), reading name into a new tree gives the same tree back.", "quantifier": "all trees", "why_tests_cant": "infinitely many trees", "anchors": ["src/PropertyTreeYAML.cxx: PropertyTreeYAML::writeFile"]}
{"id": "C88", "title": "nodes stay valid and keep their place", "statement": "A node pointer obtained from a tree stays valid across every later readFile: the node keeps its parent, its value and whether it is terminal, and every node but the root keeps its list and keys too.", "quantifier": "all trees and all later reads", "why_tests_cant": "histories of unbounded length", "anchors": ["src/PropertyTreeYAML.cxx: fillRecurse", "include/PropertyTree.hxx: PropNode"]}
{"id": "C89", "title": "addF 'g' prints the value to the requested significant digits", "statement": "addF(v,'g',w,d) of a finite non-zero v inserts a plain or scientific decimal numeral, left-justified to the width, without trailing fraction zeros and without superfluous leading zeros, whose value is within half a unit of the d-th significant digit of v (d = 0 counting as 1).", "quantifier": "all finite non-zero doubles, all digit counts and widths", "why_tests_cant": "2^64 doubles and unbounded digit counts; the choice between the two notations depends on the value after rounding", "anchors": ["src/Format.cxx: Format::addF"]}
{"id": "C90", "title": "addF is defined for every digit count", "statement": "addF(v,fmt,w,d) of a finite v that it returns for never performs an out-of-range conversion or signed overflow, whatever the digit count.", "quantifier": "all finite doubles and digit counts", "why_tests_cant": "undefined behaviour depends on the value and the digit count and need not show in a test run", "anchors": ["src/Format.cxx: Format::addF", "src/Format.cxx: fractionate"]}
{"id": "C91", "title": "float and double options take the nearest value", "statement": "A float or double option given a text stores exactly the representable number nearest to the decimal numeral the text begins with (after white space; ties to even; with the numeral's sign, also for zero), whether or not the text looks like an option, and parse returns true; a text that begins with no numeral, or with one too large for the type, makes parse return false.", "quantifier": "all texts (any number of digits, any exponent), all registrations of a float/double option", "why_tests_cant": "unboundedly many numerals, with ties and near-ties of arbitrary length, subnormals and overflow thresholds", "anchors": ["include/Options.hxx: CmdOption::setVal", "include/Options.hxx: Options::add"]}
{"id": "C92", "title": "doubles printed by Format come back from Options", "statement": "A finite double printed by Format::addF with 's' and at least 16 digits, or (non-zero) with 'g' and at least 17 digits, or with 'f' and enough digits to print it exactly, and given as the value of a double option, is stored unchanged. The digit counts cannot be lowered.", "quantifier": "all finite doubles, digit counts, widths and option objects", "why_tests_cant": "2^64 doubles times all digit counts", "anchors": ["src/Format.cxx: Format::addF", "include/Options.hxx: CmdOption::setVal"]}
{"id": "C93", "title": "engineering notation can be read back", "statement": "The text addF inserts with 'e' and 1..7 digits for a double of magnitude 2^-1015..2^1023, given as the value of a double option, is accepted and stores a double within 5 units of the last printed digit's relative weight (5*10^-d, plus one rounding 2^-52) of the original.", "quantifier": "all doubles in the range, digit counts 1..7, all widths", "why_tests_cant": "2^63 doubles; the text depends on repeated inexact scaling", "anchors": ["src/Format.cxx: Format::addF", "include/Options.hxx: CmdOption::setVal"]}
{"id": "C94", "title": "PropNode::get<double>", "statement": "get<double> on a terminal node assigns the double nearest to the numeral its text begins with and returns true, exactly when the text begins with a numeral that is not too large; otherwise it returns false, or throws BadPropertyType naming the value, and leaves the variable untouched, zero, or the largest finite double.", "quantifier": "all trees, nodes and value texts", "why_tests_cant": "unboundedly many texts", "anchors": ["include/PropertyTree.hxx: PropNode::get"]}
{"id": "C95", "title": "floats printed by Format come back from Options", "statement": "A finite float given to Format::addF with 's' and at least 8 digits, or (non-zero) with 'g' and at least 9 digits, whose text is then given as the value of a float option, is stored unchanged.", "quantifier": "all finite floats, digit counts, widths and option objects", "why_tests_cant": "2^32 floats times all digit counts and widths", "anchors": ["src/Format.cxx: Format::addF", "include/Options.hxx: CmdOption::setVal"]}
{"id": "C96", "title": "PropNode::get for integers", "statement": "get<int> (get<long>) on a terminal node assigns the integer its text begins with and returns true exactly when there is one and it fits the type; otherwise the call returns false, or throws BadPropertyType naming the value when asked to throw.", "quantifier": "all trees, nodes and value texts", "why_tests_cant": "unboundedly many texts", "anchors": ["include/PropertyTree.hxx: PropNode::get"]}
{"id": "C97", "title": "values printed by Format come back from a PropertyTree", "statement": "A node whose value is the text printed by addI of an int, by addU in decimal of an unsigned long, or by addF of a finite double ('s' with at least 16 digits, or 'g' with at least 17 and a non-zero value), returns that very value from get<int>, get<unsigned long>, get<double>.", "quantifier": "all values, widths and trees", "why_tests_cant": "2^64 values of each type", "anchors": ["include/PropertyTree.hxx: PropNode::get", "src/Format.cxx: addI, addU, addF"]}
{"id": "C98", "title": "printing a format to a stream", "statement": "Writing a Format to an output stream appends exactly the text str(false) returns (the same text str() returns whenever str() succeeds), justified to the width, fill character and adjustment set on the stream; the stream's width is then reset. Printing never throws, whatever has or has not been filled in.", "quantifier": "all templates, lists of values and stream settings", "why_tests_cant": "ranges over every template and every stream state", "anchors": ["src/Format.cxx: operator<<", "src/Format.cxx: Format::str"]}
{"id": "C99", "title": "rounding to significant digits", "statement": "For every double v and every number of digits sd of at least one, roundToSigDigs returns, and what it returns is a number of sd significant decimal digits next to v: n * 10^j with n between 10^(sd-1) and 10^sd, no further from v than half a unit of the last digit.", "quantifier": "all doubles and digit counts", "why_tests_cant": "two loops with accumulated rounding errors over all doubles; termination for every value", "anchors": ["src/Format.cxx: Format::roundToSigDigs", "include/Format.hxx: roundToSigDigs"]}
{"id": "C100", "title": "a barrier publishes what its threads did", "statement": "Of n threads using a barrier of n waiters without timeouts, whatever a thread did before its k-th call of wait happens before (in the sense of the C++ memory model) everything any of the n threads does after its k-th return from wait: data written before the barrier may be read after it with no further synchronisation.", "quantifier": "all numbers of threads, schedules, numbers of rounds, counter overflows and spurious wakeups", "why_tests_cant": "a missing synchronisation edge shows only on some schedules, compilers and machines", "anchors": ["include/Barrier.hxx: Barrier::wait", "src/Barrier.cxx: Barrier::wait"]}
{"id": "C101", "title": "a mailbox publishes what was done before a put", "statement": "When get returns a message, the message was put into the same mailbox by a call that happens before the return: everything the putting thread did before the put (such as filling in the message) may be read by the getting thread with no further synchronisation.", "quantifier": "all mailboxes, threads, calls and schedules", "why_tests_cant": "a missing synchronisation edge shows only on some schedules, compilers and machines", "anchors": ["include/MailBox.hxx: MailBox::put", "include/MailBox.hxx: MailBox::get"]}
{"id": "C102", "title": "every command string is read in exactly one way", "statement": "Every string given to parse(string) is cut into arguments in exactly one way: blanks separate words; a double quote opens a text that runs to the next double quote, blanks included, and is joined to the characters directly before it; an unterminated quote takes the rest of the string. The parse of the string is the parse of those arguments.", "quantifier": "all strings and all registered option sets", "why_tests_cant": "the set of strings is infinite and the odd cases are quotes in unusual places", "anchors": ["src/Options.cxx: Options::parse(const std::string &), Options::buildTokenList"]}
{"id": "C103", "title": "parse always returns", "statement": "For every input, parse of a command line, of a string and of key=value text returns true or false; none of them has undefined behaviour or lets an exception escape.", "quantifier": "all inputs and all registered option sets", "why_tests_cant": "a statement about every input, including malformed ones", "anchors": ["src/Options.cxx: Options::parse, Options::parseKeyValue, Options::buildTokenList"]}
{"id": "C104", "title": "the order of different options does not matter", "statement": "If two command lines are both understood to the end and give the same items in different orders, with no option given twice and the positional arguments in the same order, then parse returns true for both and every variable, vector, positional argument list and isPresent answer is the same.", "quantifier": "all registered option sets, all pairs of argument lists", "why_tests_cant": "all pairs of options and all surrounding arguments", "anchors": ["src/Options.cxx: Options::parse"]}
{"id": "C105", "title": "long and short names are interchangeable", "statement": "Replacing an option's long name by its short name, or the reverse, anywhere in a command line changes nothing about what parse stores or returns.", "quantifier": "all registered option sets, all argument lists", "why_tests_cant": "all option sets and all positions", "anchors": ["src/Options.cxx: Options::parse, findOpt, isSwitch"]}
{"id": "C106", "title": "barriers for one thread and for none", "statement": "At a barrier built for one thread no wait ever blocks, times out or throws, however many threads call it; at a barrier built for zero threads no wait returns until it times out or 2^32 threads have arrived.", "quantifier": "all thread counts and schedules", "why_tests_cant": "schedules cannot be enumerated, and never returning cannot be observed", "anchors": ["src/Barrier.cxx: Barrier::wait"]}
{"id": "C107", "title": "wait has no data race, whoever calls it", "statement": "However many threads call wait and whether or not timeouts expire, no two threads access the fields of the barrier at the same time with one of them writing.", "quantifier": "all thread counts, timeouts and schedules", "why_tests_cant": "data races are not observable by tests", "anchors": ["src/Barrier.cxx: Barrier::wait lines 58, 66, 93"]}
{"id": "C108", "title": "mailbox calls end in every schedule", "statement": "From every reachable state, every schedule in which no new mailbox call is made is finite, and it can only stop when every pending call has returned.", "quantifier": "all schedules, any number of threads and mailboxes", "why_tests_cant": "schedules cannot be enumerated", "anchors": ["include/MailBox.hxx: lock_guard and the loops of every method"]}
{"id": "C109", "title": "calls on one mailbox are ordered", "statement": "If a call on a mailbox had returned when another thread called the same mailbox, then everything the first thread did up to its call happens before everything the second thread does after its own call returns; and any two completed calls of different threads on one mailbox are ordered by happens-before one way or the other.", "quantifier": "all schedules, any number of threads and mailboxes", "why_tests_cant": "missing synchronisation shows only under rare timings and weak memory", "anchors": ["include/MailBox.hxx: lock_guard in every method"]}
{"id": "C110", "title": "dump prints exactly what has been loaded", "statement": "After any series of readFile calls, dump prints the list items of the root in the order they were read, then its keys in ascending order, each with the text last stored under it or followed by the same picture, two spaces further in, of the node under it -- and nothing else. Trees with the same content print the same text; in particular the order in which a file lists differently named entries does not show.", "quantifier": "all histories of files and all documents, nested to any depth", "why_tests_cant": "documents and histories are unbounded", "anchors": ["src/PropertyTree.cxx: PropertyTree::dump, PropNode::dump", "src/PropertyTreeYAML.cxx: fillRecurse"]}
{"id": "C111", "title": "formatters are values", "statement": "A chain of calls on a formatter changes that formatter and no other; a copy or an assigned formatter starts with the template and values of its source and from then on the two are independent; this holds for Format and for classes derived from Format_ext.", "quantifier": "all programs made of constructions, copies, slices, assignments, destructions and call chains (additions and resets), of any length, over any number of formatters", "why_tests_cant": "the wrong object is changed only for particular histories (a copy, then a chain of two or more calls), and the copied pointer dangles only when the original has ended", "anchors": ["include/Format.hxx: class Format_ext, saved_ptr", "src/Format.cxx: insertField, reset", "examples/FormatExample.cxx: MyFormat"]}
{"id": "C112", "title": "Options objects are independent", "statement": "Whatever is called on one Options object leaves every other one's positional arguments, options, help text and isPresent answers as they were, also when one is a copy of the other.", "quantifier": "all programs with any number of Options objects, and all histories of constructions, copies, assignments, registrations, addInfo and parse calls of every form", "why_tests_cant": "interference shows only for particular pairs of objects and call histories (here: copies made after options were registered)", "anchors": ["include/Options.hxx: class Options, OptBase_p, long_map, ab_map, OptBase::present", "src/Options.cxx: parse, isPresent, registerOpt"]}
{"id": "C113", "title": "the documented exchange program works under every schedule", "statement": "Threads that subscribe to one mailbox, meet at a barrier, and then in every trial send num_msgs messages and collect num_msgs per sender (all senders, or with the no-echo form of put all but themselves) get in each trial from each sender exactly the messages it sent in that trial, in order; no thread runs more than one trial ahead of another; no thread gets an exception; every thread that finishes reports success; when all have finished the mailbox holds nothing; and from every reachable state all can still finish.", "quantifier": "all numbers of threads, messages and trials that fit an int, with and without no_echo, and all schedules in which the barrier's timeout does not expire", "why_tests_cant": "a test run sees a handful of schedules and small counts; mixing up messages of successive trials depends on the interleaving of barrier, put and get", "anchors": ["test/MailBoxTest.cxx: objMailBoxTest, testObjMessage", "include/MailBox.hxx: subscribe, put, get, minReadyCount, ~Subscription", "src/Barrier.cxx: wait"]}
{"id": "C114", "title": "convert gives the mailbox back or says why not", "statement": "MailBoxBase::convert<T> returns the very mailbox it was given if that is a T, and otherwise throws BadConversion with a message that names the mailbox, the type it has and the type asked for.", "quantifier": "all mailboxes, names and types", "why_tests_cant": "a test has to choose particular types and names", "anchors": ["include/MailBox.hxx: MailBoxBase::convert, BadConversion"]}
{"id": "C115", "title": "subscriptions and the life of their mailbox", "statement": "Letting a Subscription go is safe whether or not other MailBoxPtr to the mailbox exist, a Subscription is good for its own mailbox only, and a mailbox made where another one used to be starts afresh.", "quantifier": "all histories of making mailboxes, copying and dropping MailBoxPtr, calls, and dropping subscriptions, with every reuse of addresses", "why_tests_cant": "it depends on the order in which the last pointer and the subscriptions go and on the allocator's reuse of memory", "anchors": ["include/MailBox.hxx: SubscriptionCl, ~SubscriptionCl, getIndex, ~MailBox, makeMailBox"]}
{"id": "C116", "title": "a barrier can be destroyed when its threads are through", "statement": "Once every participant has arrived and a wait has returned, the barrier may be destroyed; with one BarrierPtr per thread it is never destroyed while a thread is inside wait.", "quantifier": "all numbers of threads and waiters, schedules, timeouts and moments at which threads let their pointers go", "why_tests_cant": "the window between the return of one thread and the last access of another is a matter of the schedule", "anchors": ["src/Barrier.cxx: wait, makeBarrier", "include/Barrier.hxx: BarrierPtr"]}
{"id": "C117", "title": "a mailbox survives running out of memory", "statement": "If memory runs out during a call on a mailbox, the caller gets std::bad_alloc, the call has had no effect, and the mailbox goes on working; taking messages needs no memory.", "quantifier": "all histories, all mailbox calls, every allocation that may fail", "why_tests_cant": "the failure can strike at every allocation of every call in every state", "anchors": ["include/MailBox.hxx: subscribe, put, get, minReadyCount, clear, unsubscribe, ~SubscriptionCl"]}
{"id": "C118", "title": "a message lives exactly as long as somebody can want it", "statement": "A message put into mailboxes is destroyed exactly once: not while the program holds a pointer to it or a subscriber can still get it, and as soon as neither is the case; put, get, subscribe and the counts never destroy one.", "quantifier": "all programs that make, copy and release message pointers and call any number of mailboxes", "why_tests_cant": "it ranges over all interleavings of pointer releases with gets, clears and unsubscribes of all subscribers", "anchors": ["include/MailBox.hxx: get, put, clear, unsubscribe, ~MailBox, page text on reclaiming messages"]}
{"id": "C119", "title": "the destructor of a message may use the mailbox", "statement": "When a mailbox destroys a message (see C118), the destructor of the message may call functions of that mailbox.", "quantifier": "all message types and all histories", "why_tests_cant": "it depends on what an arbitrary message type does when destroyed, and on which call drops its last pointer", "anchors": ["include/MailBox.hxx: clear, unsubscribe, ~SubscriptionCl, mtx"]}
{"id": "C120", "title": "after a Timeout nobody passes the barrier", "statement": "Once a waiter has given up with Timeout the barrier stays broken: a thread that calls wait afterwards is not let through unless num_waiters threads are waiting, and is told with Corrupt.", "quantifier": "all numbers of waiters and threads, all schedules and expiry times", "why_tests_cant": "it concerns every later call in every interleaving, after an expiry at any point", "anchors": ["include/Barrier.hxx: Barrier::wait, Timeout, Corrupt", "src/Barrier.cxx: wait"]}
{"id": "C121", "title": "test functions may look at options already read", "statement": "A test function given to add or addV may look at the program's variables, at isPresent and at the positional arguments: it is called once for each value that can be read, in the order of the command line, and finds there the effect of every earlier item of the line and of no later one (its own scalar variable already holds the value to be judged). The parse succeeds exactly if every item is understood and every value is accepted in that sense.", "quantifier": "all sets of options, all test functions that change nothing, all command lines, all earlier histories", "why_tests_cant": "it ranges over arbitrary test functions, and over what each call of them can see for every command line", "anchors": ["include/Options.hxx: Options::add, Options::addV, Opt::setVal, OptVec::setVal", "src/Options.cxx: Options::parse"]}
{"id": "C122", "title": "a test function may throw", "statement": "If a test function throws, the exception reaches the caller of parse, what stood before it on the line has taken effect and nothing is written to stderr; the object can be used for further command lines.", "quantifier": "all sets of options, all test functions and exceptions, all command lines, all later command lines", "why_tests_cant": "it concerns every exception, thrown at any point of any command line, and all later uses of the object", "anchors": ["include/Options.hxx: Opt::setVal, OptVec::setVal", "src/Options.cxx: Options::parse, the catch clauses, waiting_for_signed_value"]}
{"id": "C123", "title": "the barrier program of the manual works under every schedule", "statement": "In the example program of the manual, with any number of threads, as long as no wait times out: no thread writes its number a second time before every thread has written it once, main has announced that it waits, and all of them have passed the barrier; \" clear the barrier\" is written last, when every number has been written twice and every call of wait has returned normally; the program cannot stop before that, nor be terminated, and reaches it in a bounded number of steps.", "quantifier": "all numbers of threads (up to 2^32 - 2), all schedules with any number of spurious wakeups and no expiry", "why_tests_cant": "the output of one run shows one interleaving; the claim is about every interleaving of any number of threads", "anchors": ["examples/BarrierExample.cxx: main, barrierExample", "include/Barrier.hxx: Barrier::wait, makeBarrier", "src/Barrier.cxx: Barrier::wait"]}
{"id": "C124", "title": "the barrier test program always ends, its threads in lock step", "statement": "The barrier's own test program, with any number of threads and trials, always ends with \"Joined all threads\", whatever expires: no exception leaves a thread, and the number of steps is bounded. A thread reports at most one line, the text of the exception its wait threw, and at most one thread reports the timeout. While no wait times out no thread is more than one trial ahead of another, and at the end each has done all trials and reported nothing.", "quantifier": "all numbers of threads and trials, all schedules, expiries and spurious wakeups", "why_tests_cant": "the program is itself a test: one run of it explores one schedule, while a barrier that fails only under some interleaving lets it pass", "anchors": ["test/BarrierTest.cxx: testBarrier, threadBarrierTest", "src/Barrier.cxx: Barrier::wait, Barrier::Timeout, Barrier::Corrupt"]}
{"id": "C125", "title": "unsigned numbers printed by Format come back from Options", "statement": "A number printed by addU in decimal, hexadecimal or octal, given as the value of an unsigned option, is stored there unchanged.", "quantifier": "all numbers, field widths and formats of addU, all sets of options", "why_tests_cant": "it must hold for every number and width; that a text is taken for another number shows only for some", "anchors": ["src/Format.cxx: Format::addU", "include/Options.hxx: OptBase::setValBase"]}
{"id": "C126", "title": "property trees are independent objects", "statement": "A program may have several property trees and copy, assign and destroy them: each shows what was read into it and nothing else; a copy starts with what the original holds and is a tree of its own from then on.", "quantifier": "all programs that make, open, copy, assign, read into and destroy trees, all files", "why_tests_cant": "it concerns every sequence of such statements and every file", "anchors": ["include/PropertyTree.hxx: PropertyTree::root, implicit copy operations", "src/PropertyTree.cxx: PropertyTree::PropertyTree", "src/PropertyTreeYAML.cxx: PropertyTreeYAML::PropertyTreeYAML, readFile"]}
{"id": "C127", "title": "PropNode::get understands booleans, unsigned numbers, short and char", "statement": "get<bool> reads the truth values a YAML file or Format::addB writes; get<unsigned> (short, int, long) and get<short> accept exactly the numbers of their type; get<char> returns the first visible character. Where get<bool> and a bool option both accept a text they agree.", "quantifier": "all trees read from files, all terminal nodes, all value texts", "why_tests_cant": "the texts are unbounded; every text decides between success and failure", "anchors": ["include/PropertyTree.hxx: PropNode::get", "include/Options.hxx: OptBase::setVal (bool)", "src/Format.cxx: Format::addB"]}
{"id": "C128", "title": "a failed get leaves the variable alone", "statement": "When get finds no value of the type asked for (it returns false or throws), the caller's variable keeps the default it held.", "quantifier": "all trees read from files, all value texts, all previous values of the variable", "why_tests_cant": "it concerns every text that is not a value of the type", "anchors": ["include/PropertyTree.hxx: PropNode::get, PropertyTree::get"]}
{"id": "C129", "title": "a chain of mailboxes passes every message on once and in order", "statement": "When threads pass messages on from one mailbox to the next (get from one subscription, put into the next mailbox), the last reader gets the messages put into the first mailbox in the order in which they went in, each at most once; at rest, what it has received, followed by what is waiting in the mailboxes and in the hands of the threads from the last to the first, is exactly what went in.", "quantifier": "all chain lengths, all numbers of producing threads, all messages, all thread schedules, all other harmless calls on the same mailboxes", "why_tests_cant": "losses and reorderings would depend on how the threads of several mailboxes interleave, and on the length of the chain", "anchors": ["include/MailBox.hxx: MailBox::get, MailBox::put"]}
{"id": "C130", "title": "the time limit of Barrier::wait is kept", "statement": "wait(timeout) throws no earlier than its time limit after the call, where 0 and no argument mean a thousand days. Conversely, if every thread that has entered the barrier sees a round completed before its limit is over, no call of wait throws. As long as clock and limit together stay below 2^63 nanoseconds, waiting is defined.", "quantifier": "all numbers of threads, all time limits (unsigned long milliseconds below 2^63, all durations), all clock readings, all thread schedules and wake-ups, fewer than 2^32 rounds", "why_tests_cant": "tests see a few limits under a few schedules; early throws need a wake-up, a clock reading or an unlock at one particular moment", "anchors": ["src/Barrier.cxx: Barrier::wait", "include/Barrier.hxx: Barrier::wait"]}
{"id": "C131", "title": "the example program OptionsExample reports what its command line says", "statement": "Run with any command line, OptionsExample either ends with -1, reporting nothing on standard output and the reason on standard error (usage text for a request for help, the unknown option, or the value that is not acceptable), or it ends with 0 after reporting the values of its five options, its arguments and its positional arguments as the command line gives them, with intarg between -5 and 5 and never an uninitialised variable; and after it has parsed the string -i 3 -s \"this is a test\" it reports intarg = 3 and str_arg = [this is a test], the other values unchanged.", "quantifier": "all argument vectors of fewer than 2^31 arguments, all contents of the uninitialised variables", "why_tests_cant": "a test runs the program on a few command lines; the statement is about every sequence of words, options, abbreviations and values", "anchors": ["examples/OptionsExample.cxx: main", "include/Options.hxx: Options::add, addP, addV", "src/Options.cxx: Options::parse"]}
{"id": "C132", "title": "the example program PropertyTreeYamlExample prints the file it is given", "statement": "Run with a file name, and possibly further words but no options, PropertyTreeYamlExample loads exactly that file; if the document can be read it writes its whole content to standard output in the layout of dump and ends with 0, and otherwise it is terminated by the exception readFile throws, having written nothing. Run without arguments, or with anything that looks like an option, it loads no file, writes nothing to standard output and ends with -1 after a message.", "quantifier": "all argument vectors of fewer than 2^31 arguments, all file systems, all documents", "why_tests_cant": "a test runs the program on a few files and command lines", "anchors": ["examples/PropertyTreeYamlExample.cxx: main", "src/PropertyTreeYAML.cxx: PropertyTreeYAML::readFile", "src/PropertyTree.cxx: PropertyTree::dump", "src/Options.cxx: Options::parse", "test/PropertyTreeYAML_Test.cxx: main (the same text)"]}
{"id": "C133", "title": "the test program BarrierTest does what its command line says and always ends", "statement": "Run with any command line, BarrierTest either ends with -1 after saying why on standard error (usage text, the unknown option, or the value that is no int), or runs the test with the number of trials, of threads and of microseconds the line gives (100, 10 and 50 if it gives none; the last one counts). With any such numbers the test never is terminated by an exception, takes a bounded number of steps, and has joined all its threads when it ends; the threads run without undefined behaviour.", "quantifier": "all argument vectors of fewer than 2^31 arguments, all int numbers, all thread schedules, timeouts and wake-ups, all contents of the uninitialised variables", "why_tests_cant": "the program is itself a test, run with one command line under one schedule; bad numbers and late timeouts are not among them", "anchors": ["test/BarrierTest.cxx: main, testBarrier, threadBarrierTest", "src/Options.cxx: Options::parse", "src/Barrier.cxx: Barrier::wait"]}
{"id": "C134", "title": "the test program MailBoxTest does what its command line says and can always end", "statement": "Run with any command line, MailBoxTest either ends with -1 after saying why on standard error, or, having reported the refused conversion of a mailbox, runs the exchange of messages with the number of messages, threads and trials the line gives (1, 2 and 1 if it gives none), without echo if -n or --noecho is given. With any such numbers no thread dies, each thread that finishes reports success after all its trials, each has got from each other thread exactly what that one sent in each trial, and the threads can always still finish.", "quantifier": "all argument vectors of fewer than 2^31 arguments, all int numbers, all thread schedules (the barrier's thousand days not running out), all contents of the uninitialised variables", "why_tests_cant": "the program is itself a test, run with a few numbers; the statement is about all of them, negative and huge ones included", "anchors": ["test/MailBoxTest.cxx: main, testMBoxConversion, testObjMessage, objMailBoxTest", "include/MailBox.hxx: MailBox, MailBoxBase::convert", "src/Options.cxx: Options::parse"]}
{"id": "C135", "title": "under a fair scheduler the threads that exchange messages all finish", "statement": "Threads that subscribe to a mailbox, meet at a barrier, and then in each trial send messages to each other and poll get until they have all of them (the program of MailBoxTest), all come to their end with success after finitely many steps, if the scheduler never forgets for ever a thread that can go on. Nobody is starved: not by others polling the same mailbox or holding its lock, and not by any number of wake-ups of the barrier's condition variable without reason.", "quantifier": "all numbers of threads, messages and trials for which messages times threads is an int, all infinite schedules in which a thread that can move again and again moves again and again, any number of spurious wake-ups (the barrier's thousand days not running out)", "why_tests_cant": "a test that ends shows one schedule; that the polling threads cannot keep each other from ending for ever is a statement about infinite executions", "anchors": ["test/MailBoxTest.cxx: objMailBoxTest, testObjMessage", "include/MailBox.hxx: MailBox::put, MailBox::get, MailBox::subscribe", "src/Barrier.cxx: Barrier::wait"]}
{"id": "C136", "title": "under a fair scheduler every mailbox call returns", "statement": "Whatever the other threads do, and however often they call the same mailbox, every call of a mailbox method comes back (with its result or an exception) after finitely many steps, if the scheduler never forgets for ever a thread that can go on: no caller is starved.", "quantifier": "all infinite schedules in which a thread inside a call that can move again and again moves again and again, any number of threads, mailboxes and calls", "why_tests_cant": "starvation shows only in infinite executions; every test run is finite", "anchors": ["include/MailBox.hxx: MailBox (all methods, mtx)"]}
{"id": "C137", "title": "under a fair scheduler everybody passes the barrier, in spite of any number of spurious wake-ups", "statement": "With exactly num_waiters threads using the barrier and no timeout expiring: as soon as each thread has called wait R times, R calls of each thread return, under every fair scheduler, even if sleepers are woken for no reason infinitely often and threads go on calling for ever.", "quantifier": "all thread counts from 1 to 2^32-1, all R, all start values of the counter, all fair infinite schedules, any number of spurious wake-ups", "why_tests_cant": "the statement is about infinite executions and about spurious wake-ups, which a test cannot produce", "anchors": ["src/Barrier.cxx: Barrier::wait"]}
{"id": "C138", "title": "under a fair scheduler every wait with a time limit returns", "statement": "Whatever the number of threads and calls, and whether or not the barrier has been broken by an earlier timeout: if time limits run out and the scheduler is fair, every call of wait returns or throws after finitely many steps, even if it is woken for no reason infinitely often and even if other threads enter and leave the barrier for ever.", "quantifier": "all numbers of waiters and threads, all fair infinite schedules with timeouts and spurious wake-ups", "why_tests_cant": "the statement is about infinite executions", "anchors": ["src/Barrier.cxx: Barrier::wait"]}
{"id": "C139", "title": "under a fair scheduler every message put is received, through any number of relays", "statement": "If a subscriber goes on calling get, every message put into the mailbox after it subscribed is received by it after finitely many steps, once and in the order of the puts, whatever other threads do with the mailbox in the meantime (they may put for ever, and null pointers too). The same holds for a chain of mailboxes with threads in between that go on calling get and put what they get into the next mailbox: every message put into the first one reaches the reader of the last one.", "quantifier": "all numbers of relays, producers and messages, all fair infinite schedules, all starting states with no call in progress", "why_tests_cant": "the statement is about infinite executions", "anchors": ["include/MailBox.hxx: MailBox::put, MailBox::get, MailBox::subscribe"]}
{"id": "C140", "title": "under a fair scheduler the two barrier programs end", "statement": "The manual's barrier example (any number of threads below 2^32 - 1), run under any fair scheduler with no timeout expiring, comes to its end after finitely many steps, however often sleeping threads wake up for no reason: main's last line is written, every thread has passed both waits and written its number twice, and nothing happens afterwards. The barrier test program (any number of threads and trials) ends likewise: if no timeout expires every thread makes all its trials and passes every time; if time limits may run out main still joins all threads.", "quantifier": "all numbers of threads and trials, all fair infinite schedules with any number of spurious wake-ups (and, for the test program, any expiries)", "why_tests_cant": "the statement is about infinite executions and every fair schedule", "anchors": ["examples/BarrierExample.cxx: barrierExample, main", "test/BarrierTest.cxx: threadBarrierTest, testBarrier", "src/Barrier.cxx: Barrier::wait"]}
{"id": "C141", "title": "a Format survives running out of memory", "statement": "If memory runs out during addI, addU, addF, addS, addC, addB or reset, the call throws std::bad_alloc and the Format is not damaged: repeating the call until it returns gives the text that would have come out had memory never been short, a reset that returns brings the Format back to its beginning whatever happened before, and a call that returns normally has put its value into the text unharmed.", "quantifier": "all templates, all sequences of calls, every allocation of every call as the point of failure, any number of failures", "why_tests_cant": "every allocation in every call of every history is a point where it may fail", "anchors": ["src/Format.cxx: Format::insertField, Format::initialScan, Format::reset, Format::addI, Format::addU, Format::addF, Format::addS, Format::addC, Format::addB", "include/Format.hxx: Format"]}
{"id": "C142", "title": "threads may format at the same time", "statement": "Threads that each use Format objects of their own do not disturb each other: under every schedule there is no data race, and each thread's str() returns what it returns when the thread runs alone.", "quantifier": "all numbers of threads, all programs of constructor, addX, reset, str and assignments to Format::separator, all schedules", "why_tests_cant": "the number of schedules is unbounded, and a race shows only in a few of them", "anchors": ["include/Format.hxx: Format::separator", "src/Format.cxx: Format::separator, Format::addF, Format::insertField, Format::reset, Format::str"]}
{"id": "C143", "title": "the test program OptionsTest says PASS exactly when Options works", "statement": "OptionsTest prints PASS only if the command line it was given (or, without arguments, its own) was understood and the values, positional words and counts are those the line gives.", "quantifier": "all command lines; for the run without arguments, all behaviours of parse, numPosArgs, getPosArgs and getPosArg", "why_tests_cant": "it is a statement about a test: what the test would notice for every command line and every wrong library", "anchors": ["test/OptionsTest.cxx: main, testPosArgs", "src/Options.cxx: Options::parse, Options::getPosArg, Options::getPosArgs", "include/Options.hxx: Options::numPosArgs"]}
{"id": "C144", "title": "FormatTest complains exactly about texts that are off by more than its tolerance", "statement": "For a number v printed with p digits (0 to 4), the check of FormatTest complains about a text exactly when the text does not begin with a number, or the number it begins with differs from v by more than 5*10^-p of v.", "quantifier": "all doubles v, all texts, p from 0 to 4", "why_tests_cant": "it is a statement about the test itself, over all numbers and all texts the library could have printed", "anchors": ["test/FormatTest.cxx: badDiff, checkVal"]}
{"id": "C145", "title": "FormatTest passes, and its exit code 0 means that no check complained", "statement": "FormatTest, run with fewer than four arguments, exits with 0 whatever numbers its random generator hands out: every positive number printed with the formats e, s and g, 0 to 4 digits and any width is read back within 5*10^-p. If any of its checks complained (for whatever separator), the exit code is not 0.", "quantifier": "all sequences of random numbers (0 or from 2^-900 to 1.1), all rounds, exponents, digits, widths and formats of the run", "why_tests_cant": "a run of the test sees one sequence of random numbers", "anchors": ["test/FormatTest.cxx: doTest, runBigTest, main", "src/Format.cxx: Format::addF, Format::str"]}
{"id": "C146", "title": "Format can be extended with own methods", "statement": "In a class derived from Format_ext in the way of examples/FormatExample.cxx, calls of the library's methods and of the class's own methods can be chained in any order: each value goes into the next field of the object the chain is written on (a string given to addSBW backwards), the chain refers to that object at its end, and no other object changes. On a copy this holds for own methods only, as long as the original lives; the first library call takes the rest of the chain to the original.", "quantifier": "all templates, all chains of library and own calls, all other objects of the program", "why_tests_cant": "chains and templates are unbounded, and which object a chain ends on depends on the history of copies", "anchors": ["examples/FormatExample.cxx: MyFormat, MyFormat::addSBW", "include/Format.hxx: Format_ext"]}
{"id": "C147", "title": "What PASS of SplitTest tells", "statement": "SplitTest prints PASS only if split and splitVec both returned exactly the three fields of its test string.", "quantifier": "all functions in the place of split and splitVec", "why_tests_cant": "a test program does not test itself: which wrong libraries it lets through is a question about every possible library", "anchors": ["test/SplitTest.cxx: main", "src/Split.cxx: split, splitVec"]}
{"id": "C148", "title": "What exit code 0 of FormatHexTest tells", "statement": "FormatHexTest exits with 0 exactly if the library prints every line of its four tables as demanded.", "quantifier": "all functions in the place of Format::addU", "why_tests_cant": "a test program does not test itself: which wrong libraries it lets through is a question about every possible library", "anchors": ["test/FormatHexTest.cxx: main, testFmt, oct_check_map", "src/Format.cxx: Format::addU"]}
{"id": "C149", "title": "fields written in a line come back from split", "statement": "Joining a list of fields with a delimiter and splitting the line at that delimiter gives the list back, for fields that contain no delimiter.", "quantifier": "all lists of fields, all sets of delimiters", "why_tests_cant": "lists, fields and delimiter sets are unbounded", "anchors": ["src/Split.cxx: split, splitVec, squashSpaces"]}
{"id": "C150", "title": "the test of NaN and infinity tells that addF renders them", "statement": "If FormatNaN exits with code 0, then addF with format f returned for infinity and for NaN and inserted inf and nan, padded to the width; the library passes.", "quantifier": "all functions in the place of addF, including those that throw or never return", "why_tests_cant": "the claim is about what the test itself can tell, for every possible implementation", "anchors": ["test/FormatNaN.cxx: main", "src/Format.cxx: Format::addF"]}
