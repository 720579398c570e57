(** The files from which tests and sources are made: copies of [aux_files/TestTemplates] and
    [aux_files/SourceTemplates]. *)
From Coq Require Import Ascii String.
From stdpp Require Import list.
From Verif.Text Require Import Model.

(** aux_files/TestTemplates/MyBehaviouralDiagnostics.cpp L1-36 *)
Definition my_behavioural_diagnostics_cpp : text := list_ascii_of_string "////////////////////////////////////////////////////////////////////
//                 Copyright Oliver Rosten 2022.                  //
// Distributed under the GNU GENERAL PUBLIC LICENSE, Version 3.0. //
//    (See accompanying file LICENSE.md or copy at                //
//          https://www.gnu.org/licenses/gpl-3.0.en.html)         //
////////////////////////////////////////////////////////////////////

/*! \file */

#include ""?BehaviouralDiagnostics.hpp""
#include ""?Header.hpp""

namespace ?::testing
{
	[[nodiscard]]
	std::filesystem::path ?forename_false_negative_?surname::source_file() const
	{
		return std::source_location::current().file_name();
	}

	void ?forename_false_negative_?surname::run_tests()
	{
		// e.g. check(equality, ""Useful description"", some_function(), 42);
	}

	[[nodiscard]]
	std::filesystem::path ?forename_false_negative_?surname::source_file() const
	{
		return std::source_location::current().file_name();
	}

	void ?forename_false_negative_?surname::run_tests()
	{
		// e.g. check(equality, ""Useful description"", some_function(), 42);
	}
}
"%string.

(** aux_files/TestTemplates/MyBehaviouralDiagnostics.hpp L1-37 *)
Definition my_behavioural_diagnostics_hpp : text := list_ascii_of_string "////////////////////////////////////////////////////////////////////
//                Copyright Oliver J. Rosten 2022.                //
// Distributed under the GNU GENERAL PUBLIC LICENSE, Version 3.0. //
//    (See accompanying file LICENSE.md or copy at                //
//          https://www.gnu.org/licenses/gpl-3.0.en.html)         //
////////////////////////////////////////////////////////////////////

#pragma once

/*! \file */

#include ""sequoia/TestFramework/?TestCore.hpp""

namespace ?::testing
{
	using namespace sequoia::testing;class ?forename_false_negative_?surname final : public ?_false_negative_test
	{
	public:
		using ?_false_negative_test::?_false_negative_test;

		[[nodiscard]]
		std::filesystem::path source_file() const;

		void run_tests();
	};
	
	class ?forename_false_negative_?surname final : public ?_false_negative_test
	{
	public:
		using ?_false_negative_test::?_false_negative_test;

		[[nodiscard]]
		std::filesystem::path source_file() const;

		void run_tests();
	};
}
"%string.

(** aux_files/TestTemplates/MyBehaviouralTest.cpp L1-25 *)
Definition my_behavioural_test_cpp : text := list_ascii_of_string "////////////////////////////////////////////////////////////////////
//                 Copyright Oliver Rosten 2020.                  //
// Distributed under the GNU GENERAL PUBLIC LICENSE, Version 3.0. //
//    (See accompanying file LICENSE.md or copy at                //
//          https://www.gnu.org/licenses/gpl-3.0.en.html)         //
////////////////////////////////////////////////////////////////////

/*! \file */

#include ""?BehaviouralTest.hpp""
#include ""?Header.hpp""

namespace ?::testing
{
	[[nodiscard]]
	std::filesystem::path ?forename_?surname::source_file() const
	{
		return std::source_location::current().file_name();
	}

	void ?forename_?surname::run_tests()
	{
		// e.g. check(equality, ""Useful description"", some_function(), 42);
	}
}
"%string.

(** aux_files/TestTemplates/MyBehaviouralTest.hpp L1-26 *)
Definition my_behavioural_test_hpp : text := list_ascii_of_string "////////////////////////////////////////////////////////////////////
//                Copyright Oliver J. Rosten 2020.                //
// Distributed under the GNU GENERAL PUBLIC LICENSE, Version 3.0. //
//    (See accompanying file LICENSE.md or copy at                //
//          https://www.gnu.org/licenses/gpl-3.0.en.html)         //
////////////////////////////////////////////////////////////////////

#pragma once

/*! \file */

#include ""sequoia/TestFramework/?TestCore.hpp""

namespace ?::testing
{
	using namespace sequoia::testing;class ?forename_?surname final : public ?_test
	{
	public:
		using ?_test::?_test;

		[[nodiscard]]
		std::filesystem::path source_file() const;

		void run_tests();
	};
}
"%string.

(** aux_files/TestTemplates/MyClassAllocationTest.cpp L1-30 *)
Definition my_class_allocation_test_cpp : text := list_ascii_of_string "////////////////////////////////////////////////////////////////////
//                 Copyright Oliver Rosten 2020.                  //
// Distributed under the GNU GENERAL PUBLIC LICENSE, Version 3.0. //
//    (See accompanying file LICENSE.md or copy at                //
//          https://www.gnu.org/licenses/gpl-3.0.en.html)         //
////////////////////////////////////////////////////////////////////

/*! \file */

#include ""?ClassAllocationTest.hpp""

namespace ?::testing
{
	[[nodiscard]]
	std::filesystem::path ?forename_?surname::source_file() const
	{
		return std::source_location::current().file_name();
	}

	void ?forename_?surname::run_tests()
	{
		do_allocation_tests();
	}

	template<bool PropagateCopy, bool PropagateMove, bool PropagateSwap>
	void ?forename_?surname::test_allocation()
	{
		// See e.g RegularAllocationTestDiagnostics.cpp or MoveOnlyAllocationTestDiagostics.cpp
	}
}
"%string.

(** aux_files/TestTemplates/MyClassAllocationTest.hpp L1-29 *)
Definition my_class_allocation_test_hpp : text := list_ascii_of_string "////////////////////////////////////////////////////////////////////
//                Copyright Oliver J. Rosten 2020.                //
// Distributed under the GNU GENERAL PUBLIC LICENSE, Version 3.0. //
//    (See accompanying file LICENSE.md or copy at                //
//          https://www.gnu.org/licenses/gpl-3.0.en.html)         //
////////////////////////////////////////////////////////////////////

#pragma once

/*! \file */

#include ""sequoia/TestFramework/?AllocationTestCore.hpp""

namespace ?::testing
{
	using namespace sequoia::testing;class ?forename_?surname final : public ?_allocation_test
	{
	public:
		using ?_allocation_test::?_allocation_test;

		template<bool PropagateCopy, bool PropagateMove, bool PropagateSwap>
		void test_allocation();

		[[nodiscard]]
		std::filesystem::path source_file() const;

		void run_tests();
	};
}
"%string.

(** aux_files/TestTemplates/MyClassTest.cpp L1-38 *)
Definition my_class_test_cpp : text := list_ascii_of_string "////////////////////////////////////////////////////////////////////
//                 Copyright Oliver Rosten 2020.                  //
// Distributed under the GNU GENERAL PUBLIC LICENSE, Version 3.0. //
//    (See accompanying file LICENSE.md or copy at                //
//          https://www.gnu.org/licenses/gpl-3.0.en.html)         //
////////////////////////////////////////////////////////////////////

/*! \file */

#include ""?ClassTest.hpp""

namespace ?::testing
{
	[[nodiscard]]
	std::filesystem::path ?forename_?surname::source_file() const
	{
		return std::source_location::current().file_name();
	}

	void ?forename_?surname::run_tests()
	{
		// For example:
$Regular
		// ::?_class x{args}, y{different args};
		// check(equivalence, ""Useful Description"", x, something equivalent);
		// check(equivalence,""Useful Description"", y, something equivalent);
$Move
		// auto x = []() { return ::?_class{args}; };
		// auto y = []() { return ::?_class{different args}; };
		// check(equivalence, ""Useful Description"", x(), something equivalent);
		// check(equivalence, ""Useful Description"", y(), something equivalent);
$
		// For orderable type, with x < y:
		// check_semantics(""Useful Description"", x, y, std::weak_ordering::less);
		// For equality comparable but not orderable:
		// check_semantics(""Useful Description"", x, y);
	}
}
"%string.

(** aux_files/TestTemplates/MyClassTest.hpp L1-26 *)
Definition my_class_test_hpp : text := list_ascii_of_string "////////////////////////////////////////////////////////////////////
//                Copyright Oliver J. Rosten 2020.                //
// Distributed under the GNU GENERAL PUBLIC LICENSE, Version 3.0. //
//    (See accompanying file LICENSE.md or copy at                //
//          https://www.gnu.org/licenses/gpl-3.0.en.html)         //
////////////////////////////////////////////////////////////////////

#pragma once

/*! \file */

#include ""?ClassTestingUtilities.hpp""

namespace ?::testing
{
	using namespace sequoia::testing;class ?forename_?surname final : public ?_test
	{
	public:
		using ?_test::?_test;

		[[nodiscard]]
		std::filesystem::path source_file() const;

		void run_tests();
	};
}
"%string.

(** aux_files/TestTemplates/MyClassTestingDiagnostics.cpp L1-34 *)
Definition my_class_testing_diagnostics_cpp : text := list_ascii_of_string "////////////////////////////////////////////////////////////////////
//                Copyright Oliver J. Rosten 2020.                //
// Distributed under the GNU GENERAL PUBLIC LICENSE, Version 3.0. //
//    (See accompanying file LICENSE.md or copy at                //
//          https://www.gnu.org/licenses/gpl-3.0.en.html)         //
////////////////////////////////////////////////////////////////////

/*! \file */

#include ""?ClassTestingDiagnostics.hpp""

namespace ?::testing
{
	[[nodiscard]]
	std::filesystem::path ?forename_false_negative_?surname::source_file() const
	{
		return std::source_location::current().file_name();
	}

	void ?forename_false_negative_?surname::run_tests()
	{
		// For example:
$Regular
		// ::?_class x{args}, y{different args};
		// check(equivalence, ""Useful Description"", x, something inequivalent - ordinarily this would fail);
		// check(equality, ""Useful Description"", x, y);
$Move
		// auto x = []() { return ::?_class{args}; };
		// auto y = []() { return ::?_class{different args}; };
		// check(equivalence, ""Useful Description"", x(), something inequivalent - ordinarily this would fail);
		// check(equality, ""Useful Description"", x(), y());
$
	}
}
"%string.

(** aux_files/TestTemplates/MyClassTestingDiagnostics.hpp L1-26 *)
Definition my_class_testing_diagnostics_hpp : text := list_ascii_of_string "////////////////////////////////////////////////////////////////////
//                Copyright Oliver J. Rosten 2020.                //
// Distributed under the GNU GENERAL PUBLIC LICENSE, Version 3.0. //
//    (See accompanying file LICENSE.md or copy at                //
//          https://www.gnu.org/licenses/gpl-3.0.en.html)         //
////////////////////////////////////////////////////////////////////

#pragma once

/*! \file */

#include ""?ClassTestingUtilities.hpp""

namespace ?::testing
{
	using namespace sequoia::testing;class ?forename_false_negative_?surname final : public ?_false_negative_test
	{
	public:
		using ?_false_negative_test::?_false_negative_test;

		[[nodiscard]]
		std::filesystem::path source_file() const;

		void run_tests();
	};
}
"%string.

(** aux_files/TestTemplates/MyClassTestingUtilities.hpp L1-33 *)
Definition my_class_testing_utilities_hpp : text := list_ascii_of_string "////////////////////////////////////////////////////////////////////
//                Copyright Oliver J. Rosten 2020.                //
// Distributed under the GNU GENERAL PUBLIC LICENSE, Version 3.0. //
//    (See accompanying file LICENSE.md or copy at                //
//          https://www.gnu.org/licenses/gpl-3.0.en.html)         //
////////////////////////////////////////////////////////////////////

#pragma once

/*! \file */

#include ""sequoia/TestFramework/?TestCore.hpp""
#include ""?Class.hpp""

namespace sequoia::testing
{
	template<?> struct value_tester<::?_class>
	{
		using type = ::?_class;

		template<test_mode Mode>
		static void test(equality_check_t, test_logger<Mode>& logger, const type& actual, const type& prediction)
		{
			// e.g. check(equality, ""Description"", logger, actual.some_method(), prediction.some_method());
		}
		
		template<test_mode Mode>
		static void test(equivalence_check_t, test_logger<Mode>& logger, const type& actual, ?args)
		{
			// e.g. check(equality, ""Description"", logger, actual.some_method(), ?predictions);
		}
	};
}
"%string.

(** aux_files/SourceTemplates/MyCpp.cpp L1-14 *)
Definition my_cpp_cpp : text := list_ascii_of_string "////////////////////////////////////////////////////////////////////
//                Copyright Oliver J. Rosten 2021.                //
// Distributed under the GNU GENERAL PUBLIC LICENSE, Version 3.0. //
//    (See accompanying file LICENSE.md or copy at                //
//          https://www.gnu.org/licenses/gpl-3.0.en.html)         //
////////////////////////////////////////////////////////////////////

/*! \file */

#include ""?.hpp""

namespace
?{
?}
"%string.

(** aux_files/SourceTemplates/MyFreeFunctions.hpp L1-14 *)
Definition my_free_functions_hpp : text := list_ascii_of_string "////////////////////////////////////////////////////////////////////
//                Copyright Oliver J. Rosten 2021.                //
// Distributed under the GNU GENERAL PUBLIC LICENSE, Version 3.0. //
//    (See accompanying file LICENSE.md or copy at                //
//          https://www.gnu.org/licenses/gpl-3.0.en.html)         //
////////////////////////////////////////////////////////////////////

#pragma once

/*! \file */

namespace
?{
?}
"%string.

(** aux_files/SourceTemplates/MyMoveOnlyClass.hpp L1-29 *)
Definition my_move_only_class_hpp : text := list_ascii_of_string "////////////////////////////////////////////////////////////////////
//                Copyright Oliver J. Rosten 2021.                //
// Distributed under the GNU GENERAL PUBLIC LICENSE, Version 3.0. //
//    (See accompanying file LICENSE.md or copy at                //
//          https://www.gnu.org/licenses/gpl-3.0.en.html)         //
////////////////////////////////////////////////////////////////////

#pragma once

/*! \file */

#include <compare>

namespace
?{
	template<?>
	class ?type
	{
	public:
		?type(const ?type&)     = delete;
		?type(?type&&) noexcept = default;

		?type& operator=(const ?type&)     = delete;
		?type& operator=(?type&&) noexcept = default;

		[[nodiscard]]
		friend auto operator<=>(const ?type&, const ?type&) noexcept = default;
	};
?}
"%string.

(** aux_files/SourceTemplates/MyRegularClass.hpp L1-23 *)
Definition my_regular_class_hpp : text := list_ascii_of_string "////////////////////////////////////////////////////////////////////
//                Copyright Oliver J. Rosten 2021.                //
// Distributed under the GNU GENERAL PUBLIC LICENSE, Version 3.0. //
//    (See accompanying file LICENSE.md or copy at                //
//          https://www.gnu.org/licenses/gpl-3.0.en.html)         //
////////////////////////////////////////////////////////////////////

#pragma once

/*! \file */

#include <compare>

namespace
?{
	template<?>
	class ?type
	{
	public:
		[[nodiscard]]
		friend auto operator<=>(const ?type&, const ?type&) noexcept = default;
	};
?}
"%string.
