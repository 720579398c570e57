(** The texts of files from which projects are made: aux_files/ProjectTemplate *)
From Coq Require Import Ascii String.
From stdpp Require Import list.
From Verif.Text Require Import Model.
Local Notation "⌜ s ⌝" := (list_ascii_of_string s%string).

(** aux_files/ProjectTemplate/TestAll/TestAllMain.cpp *)
Definition shipped_main : text := ⌜"////////////////////////////////////////////////////////////////////
//                Copyright Oliver J. Rosten 2020.                //
// Distributed under the GNU GENERAL PUBLIC LICENSE, Version 3.0. //
//    (See accompanying file LICENSE.md or copy at                //
//          https://www.gnu.org/licenses/gpl-3.0.en.html)         //
////////////////////////////////////////////////////////////////////

/*! \file */

#include ""sequoia/TestFramework/TestRunner.hpp""

#include <iostream>

namespace myProject::testing{};

int main(int argc, char** argv)
{
	try
	{
		using namespace myProject::testing;
		using namespace std::literals::chrono_literals;

		sequoia::testing::test_runner runner{argc, argv, ""Oliver J. Rosten"", ""\t""};

		runner.execute(sequoia::timer_resolution{1ms});
	}
	catch(const std::exception& e)
	{
		std::cout << e.what();
	}
	catch(...)
	{
		std::cout << ""Unrecognized error\n""; 
	}

	return 0;
}

"⌝.

(** aux_files/ProjectTemplate/TestAll/CMakeLists.txt *)
Definition shipped_cmake : text := ⌜"cmake_minimum_required(VERSION 3.20)

project(MyProjectTests LANGUAGES CXX)

set(Dependencies ${CMAKE_CURRENT_LIST_DIR}/../dependencies)
set(BuildSystem ${Dependencies}/sequoia/build_system)
set(TestDir ${CMAKE_CURRENT_LIST_DIR}/../Tests)
set(SourceDir ${CMAKE_CURRENT_LIST_DIR}/../Source)

include(${BuildSystem}/Utilities.cmake)

sequoia_init()

add_executable(TestAll TestAllMain.cpp)

#!add_subdirectory(${SourceDir}/myProject MyProject)
#!target_link_libraries(TestAll PUBLIC MyProject)

target_sources(TestAll PRIVATE)

target_include_directories(TestAll PRIVATE ${SourceDir})
target_include_directories(TestAll PRIVATE ${TestDir})

add_subdirectory(${Dependencies}/sequoia/Source/sequoia sequoia)
target_link_libraries(TestAll PRIVATE sequoia)

sequoia_finalize_tests(TestAll ${TestDir} Tests)

"⌝.

(** aux_files/ProjectTemplate/Source/projectTemplate/CMakeLists.txt *)
Definition shipped_library : text := ⌜"cmake_minimum_required(VERSION 3.20)

set(BuildSystem ${CMAKE_CURRENT_LIST_DIR}/../../dependencies/sequoia/build_system)
include(${BuildSystem}/Utilities.cmake)

sequoia_init()

set(SourceList)

add_library(MyProject STATIC ${SourceList})

target_include_directories(MyProject PUBLIC ${CMAKE_CURRENT_LIST_DIR}/../)

sequoia_finalize_library(MyProject)
"⌝.

(** aux_files/ProjectTemplate/.gitignore *)
Definition shipped_ignore : text := ⌜"#ignore emacs temporary files
*~

#ignore Desktop Services Store
*.DS_Store

#ignore the build directory
/build

#ignore test recovery file
output/Recovery

#ignore temporary data from tests
output/TestsTemporaryData

#ignore file recording prune info
output/Prune
"⌝.
