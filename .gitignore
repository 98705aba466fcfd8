
rocq/.*.cache
__pycache__/
*.cache
